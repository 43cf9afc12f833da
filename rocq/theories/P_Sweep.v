From Verif Require Import Base M_Table Tree M_Sweeper.

(** ** Marking the sweep levels *)
Lemma sweep_mark_ok fuel i current sl :
  i + fuel = S current -> S current <= length sl ->
  exists sl', sweep_mark fuel i current sl = Some sl' /\ length sl' = length sl /\
    (forall j, j < i \/ current < j -> sl' !! j = sl !! j) /\
    exists e, i <= e /\ e <= S current /\
      (forall j, i <= j < e -> sl !! j = Some 0 /\ sl' !! j = Some (S current)) /\
      (forall j, e <= j -> sl' !! j = sl !! j) /\
      (e <= current -> exists v, sl !! e = Some v /\ 0 < v).
Proof.
  revert i sl. induction fuel as [|k IH]; intros i sl Hi Hl; cbn [sweep_mark].
  - exists sl. split_and!; try done. exists i. split_and!; try done; try lia; intros; lia.
  - destruct (lookup_lt_is_Some_2 sl i ltac:(lia)) as [v Hv]. rewrite Hv. cbn [mbind option_bind].
    destruct (Nat.ltb_spec 0 v) as [Hp|Hp].
    + exists sl. split_and!; try done. exists i. split_and!; try done; try lia.
      intros _. by exists v.
    + assert (v = 0) as -> by lia.
      destruct (IH (S i) (<[i:=S current]> sl)) as (sl' & -> & Hlen & Hout & e & He1 & He2 & He3 & He4 & He5);
        [lia|rewrite insert_length; lia|].
      rewrite insert_length in Hlen. exists sl'. split_and!; [done|done| |].
      * intros j Hj. rewrite Hout by lia. rewrite list_lookup_insert_ne by lia. done.
      * exists e. split_and!; try lia.
        -- intros j Hj. destruct (decide (j = i)) as [->|].
           ++ split; [done|]. rewrite Hout by lia. apply list_lookup_insert. lia.
           ++ destruct (He3 j ltac:(lia)) as [H1 H2]. split; [|done].
              by rewrite list_lookup_insert_ne in H1 by lia.
        -- intros j Hj. rewrite He4 by lia. by rewrite list_lookup_insert_ne by lia.
        -- intros He. destruct (He5 He) as (v & H1 & H2). exists v. split; [|done].
           by rewrite list_lookup_insert_ne in H1 by lia.
Qed.

(** ** Merging the dead counts *)
Lemma sweep_merge_ok fuel i k dc :
  i = k + fuel -> i < length dc ->
  exists dc', sweep_merge fuel i k dc = Some dc' /\ length dc' = length dc /\
    (forall j, j < k \/ i < j -> dc' !! j = dc !! j) /\
    (forall j, k < j <= i -> dc' !! j = Some 0) /\
    ((forall j, k <= j <= i -> dc !! j = Some 0) -> dc' !! k = Some 0).
Proof.
  revert i dc. induction fuel as [|n IH]; intros i dc Hi Hl; cbn [sweep_merge].
  - exists dc. split_and!; try done; [intros; lia|]. intros H. apply H. lia.
  - destruct (lookup_lt_is_Some_2 dc k ltac:(lia)) as [x Hx].
    destruct (lookup_lt_is_Some_2 dc i ltac:(lia)) as [y Hy]. rewrite Hx, Hy. cbn [mbind option_bind].
    destruct (IH (i - 1) (<[i:=0]> (<[k:=x + y]> dc))) as (dc' & -> & Hlen & H1 & H2 & H3);
      [lia|rewrite !insert_length; lia|].
    rewrite !insert_length in Hlen. exists dc'. split_and!; [done|done| | |].
    + intros j Hj. rewrite H1 by lia. rewrite list_lookup_insert_ne by lia.
      destruct (decide (j = i)); [lia|]. rewrite list_lookup_insert_ne by lia. done.
    + intros j Hj. destruct (decide (j = i)) as [->|]; [|apply H2; lia].
      rewrite H1 by lia. apply list_lookup_insert. rewrite insert_length. lia.
    + intros H0. apply H3. intros j Hj.
      rewrite list_lookup_insert_ne by lia.
      destruct (decide (j = k)) as [->|].
      * rewrite list_lookup_insert by lia. rewrite H0 in Hx, Hy by lia. inversion Hx; inversion Hy; done.
      * rewrite list_lookup_insert_ne by lia. apply H0. lia.
Qed.

(** ** The sweep *)
Definition nmap (k : nat) (newId : list (list nid)) (f : nid) : option nid :=
  if k <=? row f then r ← newId !! row f; r !! col f else Some f.

Lemma sweep_node_eq k newId p : sweep_node k newId p = mapM (nmap k newId) p.
Proof. done. Qed.

(** one row: [r] old nodes, [kept] new nodes, [ids] the new references *)
Definition row_swept (k i : nat) (newId : list (list nid)) (r kept : list node) (ids : list nid) : Prop :=
  length ids = length r /\ length kept <= length r /\
  (forall j p, r !! j = Some p -> exists q, mapM (nmap k newId) p = Some q /\
     ((node_dead q = true /\ ids !! j = Some n0) \/
      (node_dead q = false /\ exists j', ids !! j = Some (mk i j') /\ kept !! j' = Some q))) /\
  (forall j' q, kept !! j' = Some q -> node_dead q = false /\
     exists j p, r !! j = Some p /\ ids !! j = Some (mk i j') /\ mapM (nmap k newId) p = Some q) /\
  (forall j f, ids !! j = Some f -> row f = 0 -> f = n0).

Lemma sweep_row_ok k i newId r :
  0 < i -> (forall p, p ∈ r -> is_Some (mapM (nmap k newId) p)) ->
  exists kept ids, sweep_row k i newId r = Some (kept, ids) /\ row_swept k i newId r kept ids.
Proof.
  intros Hi Hr. unfold sweep_row.
  destruct (ofold_inv (fun '(kept, ids) p => q ← sweep_node k newId p;
           Some (if node_dead q then (kept, ids ++ [n0])
                 else (kept ++ [q], ids ++ [mk i (length kept)])))
      (fun pre '(kept, ids) => row_swept k i newId pre kept ids) r ([], [])) as ([kept ids] & H1 & H2).
  - split_and!; try done.
  - intros pre x post [kept ids] Hl (I1 & I2 & I3 & I4 & I5).
    destruct (Hr x) as [q Hq]. { rewrite Hl. apply elem_of_app; right; by left. }
    rewrite sweep_node_eq, Hq. cbn [mbind option_bind]. destruct (node_dead q) eqn:Hd.
    + eexists (_, _). split; [done|]. split_and!.
      * rewrite !app_length. simpl. lia.
      * rewrite !app_length. simpl. lia.
      * intros j p Hp. apply lookup_app_Some in Hp as [Hp|[Hge Hp]].
        -- destruct (I3 j p Hp) as (q' & Hq' & [[? ?]|(? & j' & ? & ?)]); exists q'; (split; [done|]).
           ++ left. split; [done|]. by apply lookup_app_l_Some.
           ++ right. split; [done|]. exists j'. split; [by apply lookup_app_l_Some|done].
        -- apply list_lookup_singleton_Some in Hp as [Hj <-]. exists q. split; [done|]. left. split; [done|].
           rewrite lookup_app_r by lia. rewrite I1, Hj. done.
      * intros j' q' Hq'. destruct (I4 j' q' Hq') as (? & j & p & ? & ? & ?). split; [done|].
        exists j, p. split_and!; [by apply lookup_app_l_Some..|done].
      * intros j f Hf. apply lookup_app_Some in Hf as [Hf|[_ Hf]]; [by eapply I5|].
        apply list_lookup_singleton_Some in Hf as [_ <-]. done.
    + eexists (_, _). split; [done|]. split_and!.
      * rewrite !app_length. simpl. lia.
      * rewrite !app_length. simpl. lia.
      * intros j p Hp. apply lookup_app_Some in Hp as [Hp|[Hge Hp]].
        -- destruct (I3 j p Hp) as (q' & Hq' & [[? ?]|(? & j' & ? & ?)]); exists q'; (split; [done|]).
           ++ left. split; [done|]. by apply lookup_app_l_Some.
           ++ right. split; [done|]. exists j'. split; by apply lookup_app_l_Some.
        -- apply list_lookup_singleton_Some in Hp as [Hj <-]. exists q. split; [done|]. right. split; [done|].
           exists (length kept). split; [rewrite lookup_app_r by lia; rewrite I1, Hj; done|].
           rewrite lookup_app_r by lia. by rewrite Nat.sub_diag.
      * intros j' q' Hq'. apply lookup_app_Some in Hq' as [Hq'|[Hge Hq']].
        -- destruct (I4 j' q' Hq') as (? & j & p & ? & ? & ?). split; [done|].
           exists j, p. split_and!; [by apply lookup_app_l_Some..|done].
        -- apply list_lookup_singleton_Some in Hq' as [Hj <-]. split; [done|].
           exists (length pre), x. split_and!; [| |done].
           ++ rewrite lookup_app_r by lia. by rewrite Nat.sub_diag.
           ++ rewrite lookup_app_r by lia. rewrite I1, Nat.sub_diag. simpl. do 2 f_equal. lia.
      * intros j f Hf. apply lookup_app_Some in Hf as [Hf|[_ Hf]]; [by eapply I5|].
        apply list_lookup_singleton_Some in Hf as [_ <-]. intros Hz. simpl in Hz. lia.
  - by exists kept, ids.
Qed.

(** What a sweep needs: rows from k on have valid references. *)
Definition sweepable (k : nat) (t : table) : Prop :=
  forall i r j p f, k <= i -> t !! i = Some r -> r !! j = Some p -> f ∈ p ->
    row f < i /\ (k <= row f -> is_Some (tget t f)).

Lemma mapM_is_Some {A B} (f : A -> option B) l : (forall x, x ∈ l -> is_Some (f x)) -> is_Some (mapM f l).
Proof.
  intros H. destruct (mapM f l) eqn:E; [by eexists|].
  apply mapM_None_1, Exists_exists in E as (x & Hx & Hn). destruct (H x Hx); congruence.
Qed.

Lemma mapM_ext_in {A B} (f g : A -> option B) l : (forall x, x ∈ l -> f x = g x) -> mapM f l = mapM g l.
Proof.
  induction l as [|x l IH]; intros H; simpl; [done|].
  rewrite H by left. rewrite IH; [done|]. intros y Hy. apply H. by right.
Qed.

Lemma sweep_rows_ok k t :
  0 < k -> k <= length t -> sweepable k t ->
  exists t' newId, sweep_rows k t = Some (t', newId) /\ length t' = length t /\ length newId = length t /\
    (forall i, i < k -> t' !! i = t !! i) /\
    (forall i, i < k -> newId !! i = Some []) /\
    (forall i r, k <= i -> t !! i = Some r -> exists kept ids, t' !! i = Some kept /\ newId !! i = Some ids /\
       row_swept k i newId r kept ids).
Proof.
  intros Hk Hkt Hsw. unfold sweep_rows.
  set (body := fun '(t, newId) i => _).
  destruct (ofold_inv body (fun pre '(t', newId) => length t' = length t /\ length newId = length t /\
     (forall i, i < k \/ k + length pre <= i -> t' !! i = t !! i) /\
     (forall i, i < length t -> i < k \/ k + length pre <= i -> newId !! i = Some []) /\
     (forall i r, k <= i < k + length pre -> t !! i = Some r -> exists kept ids, t' !! i = Some kept /\ newId !! i = Some ids /\
       row_swept k i newId r kept ids)) (seq k (length t - k)) (t, replicate (length t) []))
    as ([t' newId] & H1 & H2 & H3 & H4 & H5 & H6).
  - split_and!; try done.
    + by rewrite replicate_length.
    + intros i Hi _. by apply lookup_replicate_2.
    + simpl. intros; lia.
  - intros pre x post [t' newId] Hl (I1 & I2 & I3 & I4 & I5).
    assert (length pre < length t - k).
    { apply (f_equal length) in Hl. rewrite seq_length, app_length in Hl. simpl in Hl. lia. }
    assert (x = k + length pre) as ->.
    { assert (seq k (length t - k) !! length pre = Some x) as Hx.
      { rewrite Hl. rewrite lookup_app_r by lia. by rewrite Nat.sub_diag. }
      apply lookup_seq in Hx. lia. }
    set (i := k + length pre) in *. unfold body.
    destruct (lookup_lt_is_Some_2 t i ltac:(lia)) as [r Hr].
    rewrite I3 by (unfold i; lia). rewrite Hr. cbn [mbind option_bind].
    assert (forall p, p ∈ r -> is_Some (mapM (nmap k newId) p)) as Hall.
    { intros p Hp. apply mapM_is_Some. intros f Hf. apply elem_of_list_lookup in Hp as [j Hj].
      destruct (Hsw i r j p f ltac:(unfold i; lia) Hr Hj Hf) as [Hlt Hv]. unfold nmap.
      destruct (Nat.leb_spec k (row f)) as [Hle|Hle]; [|by eexists].
      destruct (Hv Hle) as [q Hq]. unfold tget in Hq. destruct (t !! row f) as [rf|] eqn:Erf; [|done].
      simpl in Hq. destruct (I5 (row f) rf) as (kept & ids & _ & E & W); [unfold i in *; lia|done|].
      rewrite E. simpl. destruct W as (W1 & _). apply lookup_lt_is_Some_2. rewrite W1.
      apply lookup_lt_is_Some_1. by eexists. }
    destruct (sweep_row_ok k i newId r ltac:(unfold i; lia) Hall) as (kept & ids & -> & W).
    cbn [mbind option_bind]. eexists (_, _). split; [done|].
    assert (forall r0 kept0 ids0 i0, i0 <= i -> t !! i0 = Some r0 -> k <= i0 -> row_swept k i0 newId r0 kept0 ids0 ->
       row_swept k i0 (<[i := ids]> newId) r0 kept0 ids0) as Hmono.
    { intros r0 kept0 ids0 i0 Hi0 Hr0 Hk0 (W1 & W2 & W3 & W4 & W5).
      assert (forall j p, r0 !! j = Some p -> mapM (nmap k (<[i := ids]> newId)) p = mapM (nmap k newId) p) as Hm.
      { intros j p Hp. apply mapM_ext_in. intros f Hf. destruct (Hsw i0 r0 j p f Hk0 Hr0 Hp Hf) as [Hlt _].
        unfold nmap. destruct (Nat.leb_spec k (row f)); [|done]. by rewrite list_lookup_insert_ne by lia. }
      split_and!; try done.
      - intros j p Hp. rewrite (Hm j p Hp). by apply W3.
      - intros j' q Hq. destruct (W4 j' q Hq) as (? & j & p & Hp & ? & ?). split; [done|].
        exists j, p. rewrite (Hm j p Hp). done. }
    rewrite app_length, Nat.add_1_r. split_and!.
    + by rewrite insert_length.
    + by rewrite insert_length.
    + intros i0 Hi0. rewrite list_lookup_insert_ne by (unfold i in *; lia). apply I3. lia.
    + intros i0 Hi0 Hi1. rewrite list_lookup_insert_ne by (unfold i in *; lia). apply I4; lia.
    + intros i0 r0 Hi0 Hr0. destruct (decide (i0 = i)) as [->|].
      * rewrite Hr in Hr0. inversion Hr0; subst r0. exists kept, ids.
        split_and!; [apply list_lookup_insert; unfold i in *; lia|apply list_lookup_insert; unfold i in *; lia|].
        apply Hmono; try done; unfold i; lia.
      * destruct (I5 i0 r0 ltac:(unfold i in *; lia) Hr0) as (kept0 & ids0 & E1 & E2 & W0).
        exists kept0, ids0. rewrite !list_lookup_insert_ne by lia. split_and!; try done.
        apply Hmono; try done; unfold i in *; lia.
  - rewrite seq_length in *. exists t', newId. split_and!; try done.
    + intros i Hi. apply H4. by left.
    + intros i Hi. apply H5; [lia|by left].
    + intros i r Hi Hr. apply H6; [|done]. apply lookup_lt_Some in Hr. lia.
Qed.
