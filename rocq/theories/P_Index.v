From Verif Require Import Base Sem M_Table Tree M_Index.

(** some node of row [i] has a branch into row [r] *)
Definition refs (t : table) (i r : nat) : Prop :=
  exists c b g, child t (mk i c) b = Some g /\ row g = r.

Lemma refs_row t i r x : t !! i = Some x -> refs t i r <-> exists g, g ∈ concat x /\ row g = r.
Proof.
  intros Hx. split.
  - intros (c & b & g & Hc & Hr). exists g. split; [|done]. unfold child, tget in Hc. simpl in Hc. rewrite Hx in Hc. simpl in Hc.
    destruct (x !! c) as [p|] eqn:Hp; [|done]. simpl in Hc.
    apply elem_of_list_In, in_concat. exists p. split; apply elem_of_list_In; by eapply elem_of_list_lookup_2.
  - intros (g & Hg & Hr). apply elem_of_list_In, in_concat in Hg as (p & Hp & Hg).
    apply elem_of_list_In, elem_of_list_lookup in Hp as [c Hc]. apply elem_of_list_In, elem_of_list_lookup in Hg as [b Hb].
    exists c, b, g. split; [|done]. unfold child, tget. simpl. rewrite Hx. simpl. rewrite Hc. done.
Qed.

Record index_ok (t : table) (hi lo : list (list nat)) : Prop := {
  ix_len : length lo = length t;
  ix_lo : forall i, 0 < i < length t -> exists L, lo !! i = Some L /\ NoDup L /\
     forall r, r ∈ L <-> 0 < r < i /\ refs t i r /\ forall i', i < i' < length t -> ~ refs t i' r;
  ix_hi : forall l i, 0 < i < length t ->
     (exists H, hi !! l = Some H /\ i ∈ H) <-> (l = i \/ refs t i l) /\ 0 < l /\ forall r, refs t i r -> r = 0 \/ l <= r
}.

Lemma lookup_insert_bool (l : list bool) k k' v : k < length l ->
  <[k := v]> l !! k' = if decide (k = k') then Some v else l !! k'.
Proof. intros H. destruct (decide (k = k')) as [->|]; [by apply list_lookup_insert|by apply list_lookup_insert_ne]. Qed.

Lemma mark_row N i r lm : i < N -> length lm = N -> (forall g, g ∈ r -> row g < i) ->
  exists lowest lm' my, ofold mark_branch r (i, lm, replicate N false) = Some (lowest, lm', my) /\
    length lm' = N /\ length my = N /\ lowest <= i /\
    (lowest = i \/ exists g, g ∈ r /\ row g = lowest /\ 0 < lowest) /\
    (forall g, g ∈ r -> row g = 0 \/ lowest <= row g) /\
    (forall k, lm' !! k = Some true <-> lm !! k = Some true \/ (0 < k /\ exists g, g ∈ r /\ row g = k)) /\
    (forall k, my !! k = Some true <-> (k < N /\ lm !! k <> Some true) /\ 0 < k /\ exists g, g ∈ r /\ row g = k).
Proof.
  intros Hi Hlm Hr.
  destruct (ofold_inv mark_branch (fun pre '(lowest, lm', my) =>
    length lm' = N /\ length my = N /\ lowest <= i /\
    (lowest = i \/ exists g, g ∈ pre /\ row g = lowest /\ 0 < lowest) /\
    (forall g, g ∈ pre -> row g = 0 \/ lowest <= row g) /\
    (forall k, lm' !! k = Some true <-> lm !! k = Some true \/ (0 < k /\ exists g, g ∈ pre /\ row g = k)) /\
    (forall k, my !! k = Some true <-> (k < N /\ lm !! k <> Some true) /\ 0 < k /\ exists g, g ∈ pre /\ row g = k))
    r (i, lm, replicate N false)) as ([[lowest lm'] my] & E & HP).
  - split_and!; try done; try (by left).
    + by rewrite replicate_length.
    + intros g Hg. by apply elem_of_nil in Hg.
    + intros k. split; [by left|]. intros [?|(_ & g & Hg & _)]; [done|by apply elem_of_nil in Hg].
    + intros k. split.
      * intros H. apply lookup_replicate in H as [? _]. done.
      * intros (_ & _ & g & Hg & _). by apply elem_of_nil in Hg.
  - intros pre g post [[lowest lm'] my] Hl (L1 & L2 & L3 & L4 & L5 & L6 & L7).
    assert (row g < i) as Hg. { apply Hr. rewrite Hl. apply elem_of_app. right. by left. }
    unfold mark_branch. destruct (Nat.eqb_spec (row g) 0) as [Hz|Hz].
    { eexists. split; [done|]. cbn beta iota. split_and!; try done.
      - destruct L4 as [?|(g' & ? & ?)]; [by left|right]. exists g'. split; [by apply elem_of_app; left|done].
      - intros g' Hg'. apply elem_of_app in Hg' as [?|Hg']; [by apply L5|]. apply elem_of_list_singleton in Hg' as ->. by left.
      - intros k. rewrite L6. split; [intros [?|(? & g' & ? & ?)]; [by left|right]; split; [done|]; exists g'; split; [by apply elem_of_app; left|done]|].
        intros [?|(? & g' & Hg' & ?)]; [by left|right]. split; [done|]. apply elem_of_app in Hg' as [?|Hg']; [by exists g'|].
        apply elem_of_list_singleton in Hg' as ->. lia.
      - intros k. rewrite L7. split; [intros (? & ? & g' & ? & ?); split_and!; [tauto..|]; exists g'; split; [by apply elem_of_app; left|done]|].
        intros (? & ? & g' & Hg' & ?). split_and!; [tauto..|]. apply elem_of_app in Hg' as [?|Hg']; [by exists g'|].
        apply elem_of_list_singleton in Hg' as ->. lia. }
    destruct (lookup_lt_is_Some_2 lm' (row g) ltac:(lia)) as [v Hv]. rewrite Hv. cbn [mbind option_bind].
    assert (lowest `min` row g ≤ i) as M1 by lia.
    assert (lowest `min` row g = i ∨ (∃ g0 : nid, g0 ∈ pre ++ [g] ∧ row g0 = lowest `min` row g ∧ 0 < lowest `min` row g)) as M2.
    { destruct (le_lt_dec (row g) lowest) as [Hle|Hgt].
      - right. exists g. split_and!; [apply elem_of_app; right; by left|lia|lia].
      - destruct L4 as [->|(g' & G1 & G2 & G3)]; [lia|]. right. exists g'. split_and!; [by apply elem_of_app; left|lia|lia]. }
    assert (∀ g0 : nid, g0 ∈ pre ++ [g] → row g0 = 0 ∨ lowest `min` row g ≤ row g0) as M3.
    { intros g' Hg'. apply elem_of_app in Hg' as [G|G]; [destruct (L5 g' G); [by left|right; lia]|].
      apply elem_of_list_singleton in G as ->. right. lia. }
    destruct v.
    + eexists. split; [done|]. cbn beta iota. split_and!; try done.
      * intros k. rewrite L6. split; [intros [?|(? & g' & ? & ?)]; [by left|right]; split; [done|]; exists g'; split; [by apply elem_of_app; left|done]|].
        intros [?|(? & g' & Hg' & ?)]; [by left|]. apply elem_of_app in Hg' as [?|Hg']; [right; split; [done|by exists g']|].
        apply elem_of_list_singleton in Hg' as ->. subst k. apply L6 in Hv. done.
      * intros k. rewrite L7. split; [intros (? & ? & g' & ? & ?); split_and!; [tauto..|]; exists g'; split; [by apply elem_of_app; left|done]|].
        intros (? & ? & g' & Hg' & ?). split_and!; [tauto..|]. apply elem_of_app in Hg' as [?|Hg']; [by exists g'|].
        apply elem_of_list_singleton in Hg' as ->. subst k. apply L6 in Hv as [?|(_ & ?)]; [tauto|done].
    + destruct (lookup_lt_is_Some_2 my (row g) ltac:(lia)) as [v' Hv']. rewrite Hv'. cbn [mbind option_bind].
      eexists. split; [done|]. cbn beta iota. split_and!; try done; try (by rewrite insert_length).
      * intros k. rewrite lookup_insert_bool by lia. destruct (decide (row g = k)) as [<-|Hne].
        -- split; [|done]. intros _. right. split; [lia|]. exists g. split; [apply elem_of_app; right; by left|done].
        -- rewrite L6. split; [intros [?|(? & g' & ? & ?)]; [by left|right]; split; [done|]; exists g'; split; [by apply elem_of_app; left|done]|].
           intros [?|(? & g' & Hg' & ?)]; [by left|right]. split; [done|]. apply elem_of_app in Hg' as [?|Hg']; [by exists g'|].
           apply elem_of_list_singleton in Hg' as ->. done.
      * intros k. rewrite lookup_insert_bool by lia. destruct (decide (row g = k)) as [<-|Hne].
        -- split; [|done]. intros _. split_and!; [lia| |lia|].
           ++ intros Hc. assert (lm' !! row g = Some true) by (apply L6; by left). congruence.
           ++ exists g. split; [apply elem_of_app; right; by left|done].
        -- rewrite L7. split; [intros (? & ? & g' & ? & ?); split_and!; [tauto..|]; exists g'; split; [by apply elem_of_app; left|done]|].
           intros (? & ? & g' & Hg' & ?). split_and!; [tauto..|]. apply elem_of_app in Hg' as [?|Hg']; [by exists g'|].
           apply elem_of_list_singleton in Hg' as ->. done.
  - exists lowest, lm', my. split; [done|]. exact HP.
Qed.

Lemma make_index_ok a t : table_wf a t -> exists hi lo, make_index t = Some (hi, lo) /\ index_ok t hi lo.
Proof.
  intros Hwf. unfold make_index. set (N := length t).
  assert (0 < N) as HN. { destruct (wf_term a t Hwf) as (r & Hr & _). by apply lookup_lt_Some in Hr. }
  destruct (ofold_inv (index_level t) (fun pre '(hi, lo, lm) =>
    let j := N - length pre in   (* levels >= j are done *)
    length pre <= N - 1 /\ length hi = N /\ length lo = N /\ length lm = N /\
    (forall k, lm !! k = Some true <-> 0 < k /\ exists i', j <= i' < N /\ refs t i' k) /\
    (forall i, j <= i < N -> exists L, lo !! i = Some L /\ NoDup L /\
     forall r, r ∈ L <-> 0 < r < i /\ refs t i r /\ forall i', i < i' < N -> ~ refs t i' r) /\
    (forall l i, 0 < i < N -> (exists H, hi !! l = Some H /\ i ∈ H) <->
       j <= i /\ (l = i \/ refs t i l) /\ 0 < l /\ forall r, refs t i r -> r = 0 \/ l <= r))
    (reverse (seq 1 (N - 1))) (replicate N [], replicate N [], replicate N false)) as ([[hi lo] lm] & E & HP).
  - cbn beta iota. simpl length. rewrite Nat.sub_0_r. split_and!; try lia; try (by rewrite replicate_length).
    + intros k. split; [intros H; by apply lookup_replicate in H as [? _]|]. intros (_ & i' & ? & _). lia.
    + intros l i Hi. split; [|lia]. intros (H & HH & Hin). apply lookup_replicate in HH as [-> _]. by apply elem_of_nil in Hin.
  - intros pre i post [[hi lo] lm] Hl (P0 & P1 & P2 & P3 & P4 & P5 & P6).
    assert (length pre < N - 1) as Hlt.
    { apply (f_equal length) in Hl. rewrite reverse_length, seq_length, app_length in Hl. simpl in Hl. lia. }
    assert (i = N - 1 - length pre) as Hi.
    { assert (reverse (seq 1 (N - 1)) !! length pre = Some i) as Hx.
      { rewrite Hl. rewrite lookup_app_r by lia. by rewrite Nat.sub_diag. }
      rewrite reverse_lookup in Hx by (rewrite seq_length; lia).
      rewrite seq_length in Hx. apply lookup_seq in Hx. lia. }
    assert (N - length pre = S i) as Ej by lia. rewrite Ej in *.
    unfold index_level. destruct (lookup_lt_is_Some_2 t i ltac:(lia)) as [x Hx]. rewrite Hx. cbn [mbind option_bind].
    change (length t) with N.
    destruct (mark_row N i (concat x) lm ltac:(lia) ltac:(lia)) as (lowest & lm' & my & -> & M1 & M2 & M3 & M4 & M5 & M6 & M7).
    { intros g Hg. apply elem_of_list_In, in_concat in Hg as (p & Hp & Hg).
      apply elem_of_list_In, elem_of_list_lookup in Hp as [c Hc]. apply elem_of_list_In, elem_of_list_lookup in Hg as [b Hb].
      by destruct (wf_child a t Hwf i x c p b g ltac:(lia) Hx Hc Hb). }
    cbn [mbind option_bind]. destruct (lookup_lt_is_Some_2 hi lowest ltac:(lia)) as [h Hh]. rewrite Hh. cbn [mbind option_bind].
    pose proof (fun r => refs_row t i r x Hx) as Hrefs.
    eexists. split; [done|]. cbn beta iota. rewrite app_length. simpl length.
    replace (N - (length pre + 1)) with i by lia. split_and!; try lia; try (by rewrite insert_length).
    + intros k. rewrite M6, P4. split.
      * intros [(? & i' & ? & ?)|(? & Hg)]; split; try done; [exists i'; split; [lia|done]|].
        exists i. split; [lia|]. by apply Hrefs.
      * intros (? & i' & ? & Hr). destruct (decide (i' = i)) as [->|]; [right; split; [done|by apply Hrefs]|].
        left. split; [done|]. exists i'. split; [lia|done].
    + intros i' Hi'. destruct (decide (i' = i)) as [->|Hne].
      * rewrite list_lookup_insert by lia. eexists. split; [done|]. split; [apply NoDup_ListNoDup, List.NoDup_filter, NoDup_ListNoDup, NoDup_seq|].
        intros r. rewrite elem_of_list_In, filter_In, in_seq.
        assert (default false (my !! r) = true <-> my !! r = Some true) as ->.
        { destruct (my !! r) as [[]|]; simpl; split; done. }
        rewrite M7. split.
        -- intros (R1 & (R2 & R3) & R4 & R5). split_and!; [lia|lia|by apply Hrefs|].
           intros i'' Hi'' Href. apply R3. apply P4. split; [done|]. exists i''. split; [lia|done].
        -- intros (R1 & R2 & R3). pose proof R2 as R2'. apply Hrefs in R2 as (g & G1 & G2). split_and!; try lia.
           ++ destruct (M5 g G1); lia.
           ++ intros Hc. apply P4 in Hc as (_ & i'' & ? & ?). by apply (R3 i''); [lia|].
           ++ by exists g.
      * rewrite list_lookup_insert_ne by lia. apply P5. lia.
    + intros l i' Hi'. destruct (decide (l = lowest)) as [->|Hne].
      * rewrite list_lookup_insert by lia. split.
        -- intros (H & [= <-] & Hin). apply elem_of_app in Hin as [Hin|Hin].
           ++ assert (exists H, hi !! lowest = Some H /\ i' ∈ H) as Hex by (by exists h).
              apply P6 in Hex; [|done]. destruct Hex as (? & ?). split; [lia|done].
           ++ apply elem_of_list_singleton in Hin as ->. split_and!; [lia| | |].
              ** destruct M4 as [->|(g & G1 & G2 & G3)]; [by left|right]. apply Hrefs. by exists g.
              ** destruct M4 as [->|(g & G1 & G2 & G3)]; lia.
              ** intros r Hr. apply Hrefs in Hr as (g & G1 & <-). by apply M5.
        -- intros (H1 & H2 & H3 & H4). exists (h ++ [i]). split; [done|]. apply elem_of_app.
           destruct (decide (i' = i)) as [->|]; [right; by left|left].
           assert (exists H, hi !! lowest = Some H /\ i' ∈ H) as (H & HH & ?); [|congruence].
           apply P6; [done|]. split_and!; [lia|done..].
      * rewrite list_lookup_insert_ne by done. rewrite P6 by done. split; [intros (? & ?); split; [lia|done]|].
        intros (H1 & H2 & H3 & H4). split_and!; try done. destruct (decide (i' = i)) as [->|]; [|lia]. exfalso.
        apply Hne. destruct M4 as [->|(g & G1 & G2 & G3)].
        -- destruct H2 as [->|H2]; [done|]. apply Hrefs in H2 as (g & G1 & G2). destruct (M5 g G1); [lia|].
           assert (row g < i); [|lia].
           apply elem_of_list_In, in_concat in G1 as (p & Hp & Hg).
           apply elem_of_list_In, elem_of_list_lookup in Hp as [c Hc]. apply elem_of_list_In, elem_of_list_lookup in Hg as [b Hb].
           by destruct (wf_child a t Hwf i x c p b g ltac:(lia) Hx Hc Hb).
        -- assert (refs t i lowest) as Hrl by (apply Hrefs; by exists g). destruct (H4 _ Hrl) as [?|Hle]; [lia|].
           destruct H2 as [->|H2].
           ++ assert (row g < i); [|lia].
              apply elem_of_list_In, in_concat in G1 as (p & Hp & Hg).
              apply elem_of_list_In, elem_of_list_lookup in Hp as [c Hc]. apply elem_of_list_In, elem_of_list_lookup in Hg as [b Hb].
              by destruct (wf_child a t Hwf i x c p b g ltac:(lia) Hx Hc Hb).
           ++ apply Hrefs in H2 as (g' & G1' & G2'). destruct (M5 g' G1'); lia.
  - rewrite E. cbn [mbind option_bind]. exists hi, lo. split; [done|].
    rewrite reverse_length, seq_length in HP. destruct HP as (_ & P1 & P2 & P3 & P4 & P5 & P6).
    replace (N - (N - 1)) with 1 in * by lia. constructor; [done| |].
    + intros i Hi. apply P5. unfold N. lia.
    + intros l i Hi. rewrite P6 by done. split; [tauto|]. intros ?. split; [lia|done].
Qed.
