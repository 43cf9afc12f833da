(** Conversions and the universal constructor. *)
From Verif Require Import Base Sem M_Table Tree M_Engine M_Ops P_Ops P_OpsC M_Builder P_Builder M_Conv.

(** A structure is a specification whose equality is a congruence and that shares. *)
Lemma dd_congr d : dd_wf d -> spec_congr (dd_spec d).
Proof.
  intros Hd. constructor; cbn [dd_spec equal_to].
  - intros l f _. by apply neqb_true.
  - intros l f g _ _. unfold neqb. by rewrite (Nat.eqb_sym (row f)), (Nat.eqb_sym (col f)).
  - intros l f g h _ _ _ H1 H2. apply neqb_true in H1, H2. apply neqb_true. congruence.
  - intros l f g b _ _ _ H. apply neqb_true in H. cbn [get_child dd_spec]. rewrite (child_code _ _ _ b H).
    split; [done|]. intros _. by apply neqb_true.
Qed.
Lemma dd_shareable d : shareable (dd_spec d).
Proof.
  split; intros l f g; cbn [dd_spec equal_to hash_code].
  - unfold neqb. by rewrite (Nat.eqb_sym (row f)), (Nat.eqb_sym (col f)).
  - intros H. apply neqb_true in H. injection H as -> ->. done.
Qed.

Section universal.
  Context (a : nat) (Ha : 0 < a).

  Definition uref (i : nat) : nid := if i =? 0 then n1 else mk i 0.
  Definition utab (n m : nat) : table := terminal_row a :: map (fun i => if i <? m then [replicate a (uref i)] else []) (seq 0 n).

  Lemma utab_lookup n m i : utab n m !! S i = if i <? n then Some (if i <? m then [replicate a (uref i)] else []) else None.
  Proof.
    unfold utab. simpl. rewrite list_lookup_fmap. destruct (Nat.ltb_spec i n).
    - rewrite lookup_seq_lt by done. done.
    - by rewrite lookup_seq_ge by lia.
  Qed.

  Lemma utab_step n m : m < n -> <[S m := [replicate a (uref m)]]> (utab n m) = utab n (S m).
  Proof.
    intros Hm. apply list_eq. intros [|i]; [done|]. rewrite utab_lookup.
    destruct (decide (i = m)) as [->|Hne].
    - rewrite list_lookup_insert by (unfold utab; simpl; rewrite map_length, seq_length; lia).
      rewrite (proj2 (Nat.ltb_lt m n)), (proj2 (Nat.ltb_lt m (S m))) by lia. done.
    - rewrite list_lookup_insert_ne by lia. rewrite utab_lookup. destruct (i <? n); [|done].
      destruct (Nat.ltb_spec i m), (Nat.ltb_spec i (S m)); done || lia.
  Qed.

  Lemma tset_child_at t i f p k g : i < length t -> p !! k = Some g ->
    tset_child (<[i := [p]]> t) (mk i 0) k f = Some (<[i := [<[k := f]> p]]> t).
  Proof.
    intros Hl Hg. unfold tset_child, tset, tget. cbn [row col mk].
    assert (<[i:=[p]]> t !! i = Some [p]) as E by (by rewrite list_lookup_insert).
    rewrite E. cbn [mbind option_bind]. change ([p] !! 0) with (Some p). cbn [mbind option_bind]. rewrite Hg. cbn [mbind option_bind].
    by rewrite list_insert_insert.
  Qed.
  Lemma fill_node t i f x : t !! i = Some x ->
    ofor a (fun t b => tset_child t (mk i 0) b f) (<[i := [junk_node a]]> t) = Some (<[i := [replicate a f]]> t).
  Proof.
    intros Hx. assert (i < length t) as Hl by (by eapply lookup_lt_Some).
    destruct (ofor_inv (fun t b => tset_child t (mk i 0) b f)
      (fun k t' => t' = <[i := [replicate k f ++ replicate (a - k) junk]]> t) a (<[i := [junk_node a]]> t)) as (t' & -> & Ht').
    - by rewrite Nat.sub_0_r.
    - intros k t' Hk ->. rewrite (tset_child_at t i f (replicate k f ++ replicate (a - k) junk) k junk Hl).
      2:{ by rewrite lookup_app_r, lookup_replicate_2 by (rewrite ?replicate_length; lia). }
      eexists. split; [done|]. do 2 f_equal.
      replace k with (length (replicate k f) + 0) at 1 by (rewrite replicate_length; lia). rewrite insert_app_r.
      replace (a - k) with (S (a - S k)) by lia. rewrite (replicate_S_end k f), <- app_assoc. done.
    - rewrite Ht', Nat.sub_diag. cbn. by rewrite app_nil_r.
  Qed.

  Lemma universal_eq n : universal a n = Some (Dd a (utab n n) (uref n)).
  Proof.
    unfold universal.
    destruct (ofold_inv (fun '(t, f) i => t1 ← set_row t i [junk_node a];
        t2 ← ofor a (fun t b => tset_child t (mk i 0) b f) t1; Some (t2, mk i 0))
      (fun pre s => s = (utab n (length pre), uref (length pre))) (seq 1 n) (init_table a n, n1)) as (s & -> & ->).
    - f_equal. unfold init_table, utab. f_equal. apply list_eq. intros i. rewrite list_lookup_fmap. destruct (le_lt_dec n i).
      + rewrite lookup_seq_ge by lia. by apply lookup_ge_None_2; rewrite replicate_length.
      + rewrite lookup_seq_lt by lia. by rewrite lookup_replicate_2.
    - intros pre x post s Hl ->. apply (f_equal (fun l => l !! length pre)) in Hl as Hx.
      rewrite lookup_app_r, Nat.sub_diag in Hx by lia. apply lookup_seq in Hx as [-> Hlt].
      rewrite app_length. cbn [length]. replace (1 + length pre) with (S (length pre)) by lia.
      assert (utab n (length pre) !! S (length pre) = Some []) as Hu.
      { rewrite utab_lookup. rewrite (proj2 (Nat.ltb_lt _ _) Hlt). by rewrite Nat.ltb_irrefl. }
      unfold set_row. rewrite Hu. cbn [mbind option_bind]. rewrite (fill_node _ _ _ _ Hu). cbn [mbind option_bind].
      eexists. split; [done|]. rewrite utab_step by done. rewrite Nat.add_1_r. done.
    - rewrite seq_length. done.
  Qed.

  Lemma utab_wf n : dd_wf (Dd a (utab n n) (uref n)).
  Proof.
    assert (forall i, i <= n -> valid (utab n n) (uref i)) as Hv.
    { intros [|i] Hi; [unfold valid; cbn; lia|]. unfold valid, uref. cbn [Nat.eqb row mk]. unfold tget. cbn [row col mk].
      rewrite utab_lookup, (proj2 (Nat.ltb_lt i n)) by lia. by eexists. }
    split; [done|]. split; [|by apply Hv]. split.
    - exists (terminal_row a). split; [done|]. split; [done|]. unfold terminal_row. repeat constructor; apply replicate_length.
    - intros [|i] r j p Hr Hp.
      + cbn in Hr. injection Hr as <-. unfold terminal_row in Hp. destruct j as [|[|j]]; [| |done]; injection Hp as <-; apply replicate_length.
      + cbn [tab] in Hr. rewrite utab_lookup in Hr. destruct (Nat.ltb_spec i n); [|done]. injection Hr as <-.
        destruct j; [|done]. injection Hp as <-. apply replicate_length.
    - intros [|i] r j p b g Hi Hr Hp Hg; [lia|]. cbn [tab d_ar] in *. rewrite utab_lookup in Hr. destruct (Nat.ltb_spec i n); [|done]. injection Hr as <-.
      destruct j; [|done]. injection Hp as <-. apply lookup_replicate in Hg as [-> Hb]. split; [|apply Hv; lia].
      unfold uref. destruct i; cbn; lia.
  Qed.

  Lemma nth_replicate_lt {A} (x d : A) k j : j < k -> nth j (replicate k x) d = x.
  Proof. clear. intros H. rewrite nth_lookup, lookup_replicate_2 by done. done. Qed.
  Fixpoint utree (n : nat) : tree := match n with O => T1 | S k => TN (S k) (replicate a (utree k)) end.
  Lemma uref_rep n i : i <= n -> rep (utab n n) (uref i) (utree i).
  Proof.
    induction i as [|i IH]; intros Hi; [by constructor|]. cbn [utree]. change (S i) with (row (uref (S i))) at 2.
    econstructor.
    - cbn. lia.
    - unfold tget. cbn [uref Nat.eqb row col mk]. rewrite utab_lookup, (proj2 (Nat.ltb_lt i n)) by lia. reflexivity.
    - apply Forall2_replicate. apply IH. lia.
    - apply Forall_replicate. unfold uref. destruct i; cbn; lia.
  Qed.
  Lemma utree_bdd m n v : vec_ok a v -> n <= m -> tbdd m (utree n) v = true.
  Proof.
    intros Hv. revert n. induction m as [|m IH]; intros n Hn; [by replace n with 0 by lia|].
    destruct (decide (n = S m)) as [->|Hne].
    - cbn [utree]. rewrite tbdd_node. rewrite nth_replicate_lt by apply Hv. by apply IH.
    - rewrite tbdd_skip; [apply IH; lia|]. destruct n; cbn; lia.
  Qed.
  Lemma utree_zdd m n v : vec_ok a v -> n <= m -> tzdd m (utree n) v = forallb (fun i => v i =? 0) (seq (S n) (m - n)).
  Proof.
    intros Hv. revert n. induction m as [|m IH]; intros n Hn; [by replace n with 0 by lia|].
    destruct (decide (n = S m)) as [->|Hne].
    - cbn [utree]. rewrite tzdd_node. rewrite nth_replicate_lt by apply Hv. rewrite IH by done. by rewrite !Nat.sub_diag.
    - rewrite tzdd_skip; [|destruct n; cbn; lia]. rewrite IH by lia. replace (S m - n) with (S (m - n)) by lia.
      rewrite seq_S, forallb_app. cbn [forallb]. replace (S n + (m - n)) with (S m) by lia. rewrite andb_true_r.
      by destruct (v (S m) =? 0); rewrite ?andb_true_r, ?andb_false_r.
  Qed.
End universal.
