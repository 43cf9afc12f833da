(** DdDumper: the levels of the picture. *)
From Coq Require Import Ascii String.
From Verif Require Import Base Sem M_Table M_Hash P_Hash M_Text M_Dot S_Dot.
Local Open Scope nat_scope.

Section dumping.
  Context (sp : spec) (Hok : spec_ok sp).
  Context (Hsym : forall l s s', equal_to sp l s s' = equal_to sp l s' s).
  Context (Hhash : forall l s s', equal_to sp l s s' = true -> hash_code sp l s = hash_code sp l s').
  Context (level_text : nat -> text) (state_text : St sp -> nat -> text).
  Notation a := (ar sp).
  Notation reachn i s := (reach sp (Z.of_nat i) s).

  Definition entries (l : list (St sp)) : list (nat * St sp) := imap pair l.
  Definition distinct (i : nat) (l : list (St sp)) : Prop :=
    forall j j' s s', l !! j = Some s -> l !! j' = Some s' -> equal_to sp (Z.of_nat i) s s' = true -> j = j'.
  (** [tb]: the states of every level by column, so far *)
  Record good (n k : nat) (tb : nat -> list (St sp)) (dm : dumper sp) : Prop := {
    g_len : length (dm_nodes _ dm) = n + 1 /\ length (dm_uniq _ dm) = n + 1;
    g_nodes : forall i, i <= k -> dm_nodes _ dm !! i = Some (reverse (tb i));
    g_uniq : forall i, i < k -> exists u, dm_uniq _ dm !! i = Some u /\ ht_good (dm_hash sp i) (dm_eqb sp i) u /\ ht_elems u ≡ₚ entries (tb i);
    g_one : dm_one _ dm = n1 \/ dm_one _ dm = mk 0 2
  }.
  Record sound (tb : nat -> list (St sp)) : Prop := {
    s_reach : forall i s, s ∈ tb i -> 0 < i /\ reachn i s;
    s_distinct : forall i, distinct i (tb i)
  }.
  Definition ext (k : nat) (tb tb' : nat -> list (St sp)) : Prop := forall i, exists l, tb' i = tb i ++ l /\ (k <= i -> l = []).
  Lemma ext_refl k tb : ext k tb tb.
  Proof. intros i. exists []. by rewrite app_nil_r. Qed.
  Lemma ext_trans k t1 t2 t3 : ext k t1 t2 -> ext k t2 t3 -> ext k t1 t3.
  Proof. intros H1 H2 i. destruct (H1 i) as (l1 & E1 & Z1), (H2 i) as (l2 & E2 & Z2). exists (l1 ++ l2). rewrite E2, E1, app_assoc. split; [done|]. intros H. rewrite Z1, Z2 by done. done. Qed.
  Lemma ext_le k k' t1 t2 : k' <= k -> ext k' t1 t2 -> ext k t1 t2.
  Proof. intros Hk H i. destruct (H i) as (l & E & Z). exists l. split; [done|]. intros. apply Z. lia. Qed.
  Lemma ext_lookup k t1 t2 i j s : ext k t1 t2 -> t1 i !! j = Some s -> t2 i !! j = Some s.
  Proof. intros H Hs. destruct (H i) as (l & -> & _). by apply lookup_app_l_Some. Qed.

  (** the child of [s] for value [b] has been drawn as [g] *)
  Definition child_ok (tb : nat -> list (St sp)) (one : nid) (k : nat) (s : St sp) (b : nat) (g : nid) : Prop :=
    let r := get_child sp s (Z.of_nat k) b in
    (fst r = 0%Z /\ g = n0) \/ ((fst r < 0)%Z /\ g = mk 0 2 /\ one = mk 0 2) \/
    exists i j s0, fst r = Z.of_nat i /\ 0 < i < k /\ g = mk i j /\ tb i !! j = Some s0 /\ (s0 = snd r \/ equal_to sp (Z.of_nat i) s0 (snd r) = true).
  Definition one_le (one one' : nid) : Prop := one = mk 0 2 -> one' = mk 0 2.
  Lemma child_ok_ext k' tb tb' one one' k s b g : ext k' tb tb' -> one_le one one' -> child_ok tb one k s b g -> child_ok tb' one' k s b g.
  Proof.
    intros He Ho [H|[(H1 & H2 & H3)|(i & j & s0 & H1 & H2 & H3 & H4 & H5)]]; [by left|right; left; auto|]. right; right. exists i, j, s0. split; [done|]. split; [done|]. split; [done|]. split; [by eapply ext_lookup|done].
  Qed.
  (** the nodes added are among [gs] *)
  Definition created (tb tb' : nat -> list (St sp)) (gs : nid -> Prop) : Prop :=
    forall i j, length (tb i) <= j < length (tb' i) -> gs (mk i j).

  Lemma entries_elem l j s : (j, s) ∈ entries l <-> l !! j = Some s.
  Proof.
    unfold entries. rewrite elem_of_list_lookup. split.
    - intros [i Hi]. rewrite list_lookup_imap in Hi. apply fmap_Some in Hi as (x & Hx & E). by injection E as -> ->.
    - intros H. exists j. by rewrite list_lookup_imap, H.
  Qed.
  Lemma entries_snoc l s : entries (l ++ [s]) = entries l ++ [(length l, s)].
  Proof. unfold entries. rewrite imap_app. cbn. by rewrite Nat.add_0_r. Qed.

  Definition grow (tb : nat -> list (St sp)) (i : nat) (s : St sp) : nat -> list (St sp) := fun ii => if ii =? i then tb ii ++ [s] else tb ii.
  Lemma branch_ok n k tb dm s b cs : good n k tb dm -> sound tb -> reachn k s -> b < a -> exists dm' tb' g,
    dm_branch sp k s (dm, cs) b = Some (dm', cs ++ [g]) /\ good n k tb' dm' /\ sound tb' /\ ext k tb tb' /\ one_le (dm_one _ dm) (dm_one _ dm') /\
    child_ok tb' (dm_one _ dm') k s b g /\ created tb tb' (fun x => x = g).
  Proof.
    intros HG HS Hr Hb. pose proof (ok_level sp Hok _ _ _ Hr Hb) as Hlt. pose proof (reach_child sp _ _ _ Hr Hb) as Hnext. unfold dm_branch, child_ok. destruct (get_child sp s (Z.of_nat k) b) as [c s'] eqn:E. cbn [fst snd] in *.
    destruct (Z.eqb_spec c 0) as [->|Hc0].
    { exists dm, tb, n0. split_and!; try done; [apply ext_refl|unfold one_le; tauto|by left|intros i j Hj; lia]. }
    destruct (Z.ltb_spec c 0) as [Hneg|Hpos].
    { eexists _, tb, _. split; [done|]. assert ((if neqb (dm_one _ dm) n1 then mk 0 2 else dm_one _ dm) = mk 0 2) as -> by (by destruct (g_one _ _ _ _ HG) as [->| ->]).
      split; [|split; [done|split; [apply ext_refl|split; [done|split; [right; left; done|intros i j Hj; lia]]]]]. destruct HG as [H1 H2 H3 H4]. constructor; try done. by right. }
    assert (0 < c)%Z as Hc by lia. destruct (Z_of_nat_complete c ltac:(lia)) as [i ->]. rewrite Nat2Z.id. specialize (Hnext ltac:(lia)).
    rewrite (g_nodes _ _ _ _ HG i) by lia. destruct (g_uniq _ _ _ _ HG i ltac:(lia)) as (u & Eu & Hu & Hperm). rewrite Eu. cbn [mbind option_bind]. rewrite reverse_length.
    destruct (ht_add_strong (dm_hash sp i) (dm_eqb sp i) (fun x y => Hsym _ _ _) (fun x y => Hhash _ _ _) u (length (tb i), s') Hu)
      as (u' & slot & e & Eadd & Hu' & Hat & Hcase). rewrite Eadd. cbn [mbind option_bind]. rewrite Hat. cbn [mbind option_bind].
    destruct Hcase as [(He & Heq & Hp')|(-> & Hnew & Hp')].
    - destruct e as [j s0]. rewrite Hperm in He. apply entries_elem in He. cbn [fst snd] in *. pose proof (lookup_lt_Some _ _ _ He). rewrite (proj2 (Nat.eqb_neq j (length (tb i)))) by lia.
      eexists _, tb, _. split; [done|]. split.
      { constructor; cbn; [rewrite insert_length; apply HG|apply HG| |apply HG]. intros ii Hii. destruct (decide (ii = i)) as [->|Hne].
        - exists u'. split; [apply list_lookup_insert; apply lookup_lt_Some in Eu; done|]. split; [by left|]. by rewrite Hp'.
        - rewrite list_lookup_insert_ne by done. by apply HG. }
      split; [done|]. split; [apply ext_refl|]. split; [unfold one_le; tauto|]. split; [|intros ? ? ?; lia]. right; right. exists i, j, s0. split; [done|]. split; [lia|]. split; [done|]. split; [done|by right].
    - cbn [fst]. rewrite Nat.eqb_refl. eexists _, (grow tb i s'), _. split; [done|]. pose proof (g_len _ _ _ _ HG) as [L1 L2].
      assert (Hil : i < length (dm_nodes sp dm)) by (eapply lookup_lt_Some, (g_nodes _ _ _ _ HG i); lia).
      split.
      { constructor; cbn; [by rewrite !insert_length| | |apply HG].
        - intros ii Hii. unfold grow. destruct (Nat.eqb_spec ii i) as [->|Hne]; [rewrite list_lookup_insert by done; by rewrite reverse_app|]. rewrite list_lookup_insert_ne by done. by apply HG.
        - intros ii Hii. unfold grow. destruct (Nat.eqb_spec ii i) as [->|Hne].
          + exists u'. split; [apply list_lookup_insert; apply lookup_lt_Some in Eu; done|]. split; [by left|]. rewrite Hp', Hperm, entries_snoc. by rewrite Permutation_app_comm.
          + rewrite list_lookup_insert_ne by done. by apply HG. }
      split.
      { constructor.
        - intros ii x. unfold grow. destruct (Nat.eqb_spec ii i) as [->|Hne]; [|apply HS]. rewrite elem_of_app, elem_of_list_singleton. intros [H| ->]; [by apply HS|]. split; [lia|done].
        - intros ii. unfold grow. destruct (Nat.eqb_spec ii i) as [->|Hne]; [|apply HS]. intros j j' x x' Hx Hx' He.
          assert (forall j0 x0, tb i !! j0 = Some x0 -> equal_to sp (Z.of_nat i) x0 s' = false) as Hnew'.
          { intros j0 x0 H0. specialize (Hnew (j0, x0)). rewrite Hperm, entries_elem in Hnew. by apply Hnew. }
          apply lookup_app_Some in Hx as [Hx|[G1 Hx]], Hx' as [Hx'|[G2 Hx']].
          + by eapply (s_distinct _ HS i).
          + apply list_lookup_singleton_Some in Hx' as [_ <-]. by rewrite (Hnew' _ _ Hx) in He.
          + apply list_lookup_singleton_Some in Hx as [_ <-]. by rewrite Hsym, (Hnew' _ _ Hx') in He.
          + apply list_lookup_singleton_Some in Hx as [? _], Hx' as [? _]. lia. }
      split; [intros ii; unfold grow; destruct (Nat.eqb_spec ii i) as [->|]; [exists [s']; split; [done|lia]|exists []; by rewrite app_nil_r]|].
      split; [unfold one_le; tauto|]. split.
      + right; right. exists i, (length (tb i)), s'. split; [done|]. split; [lia|]. split; [done|]. split; [|by left]. unfold grow. rewrite Nat.eqb_refl, lookup_app_r, Nat.sub_diag by lia. done.
      + intros ii j. unfold grow. destruct (Nat.eqb_spec ii i) as [->|]; [|lia]. rewrite app_length. cbn. intros ?. f_equal. lia.
  Qed.
  Definition children_ok (tb : nat -> list (St sp)) (one : nid) (k : nat) (s : St sp) (cs : list nid) : Prop :=
    length cs = a /\ forall b g, cs !! b = Some g -> child_ok tb one k s b g.
  Lemma branches_ok n k tb dm s : good n k tb dm -> sound tb -> reachn k s -> exists dm' tb' cs,
    ofor a (dm_branch sp k s) (dm, []) = Some (dm', cs) /\ good n k tb' dm' /\ sound tb' /\ ext k tb tb' /\ one_le (dm_one _ dm) (dm_one _ dm') /\
    children_ok tb' (dm_one _ dm') k s cs /\ created tb tb' (fun x => x ∈ cs).
  Proof.
    intros HG HS Hr.
    destruct (ofor_inv (dm_branch sp k s) (fun j acc => exists tb', good n k tb' (fst acc) /\ sound tb' /\ ext k tb tb' /\ one_le (dm_one _ dm) (dm_one _ (fst acc)) /\
      (length (snd acc) = j /\ forall b g, snd acc !! b = Some g -> child_ok tb' (dm_one _ (fst acc)) k s b g) /\ created tb tb' (fun x => x ∈ snd acc)) a (dm, [])) as ([dm' cs] & E & H).
    - exists tb. split_and!; [done|done|apply ext_refl|unfold one_le; tauto|done|done|intros i j Hj; lia].
    - intros j [dm1 cs] Hj (tb1 & G1 & S1 & E1 & O1 & (L1 & C1) & K1). cbn [fst snd] in *. destruct (branch_ok n k tb1 dm1 s j cs G1 S1 Hr Hj) as (dm2 & tb2 & g & -> & G2 & S2 & E2 & O2 & C2 & K2).
      eexists. split; [done|]. cbn [fst snd]. exists tb2. split_and!; try done; [by eapply ext_trans|by intros H; apply O2, O1|rewrite app_length; cbn; lia| |].
      + intros b g' Hb. apply lookup_app_Some in Hb as [Hb|[? Hb]]; [by eapply child_ok_ext; [| |apply C1]|]. apply list_lookup_singleton_Some in Hb as [? <-]. by replace b with j by lia.
      + intros i j' Hj'. rewrite elem_of_app, elem_of_list_singleton. destruct (decide (j' < length (tb1 i))) as [Hlt|Hge]; [left; apply K1; lia|right; apply K2; lia].
    - destruct H as (tb' & ?). cbn [fst snd] in *. exists dm', tb', cs. split; [done|]. unfold children_ok. naive_solver.
  Qed.

  (** the statements of one level *)
  Definition edge_stmts (i j : nat) (cs : list nid) : list stmt :=
    omap (fun p => if neqb (snd p) n0 then None else Some (SEdge (i, j) (row (snd p), col (snd p)) (style_of a (fst p)))) (imap pair cs).
  Definition level_stmts (i : nat) (l : list (St sp)) (chs : list (list nid)) : list stmt :=
    map (fun p => SNode (i, fst p) (state_text (snd p) i)) (zip (reverse (seq 0 (length l))) (reverse l)) ++
    concat (imap (fun j cs => edge_stmts i j cs) chs) ++
    [SRank i (map (pair i) (seq 0 (length l)))].
  Lemma style_text b : b < a -> dm_style sp b = show_style (style_of a b).
  Proof.
    unfold dm_style, style_of. intros Hb. destruct b as [|[|[|b]]]; cbn [Nat.eqb].
    - done.
    - destruct (Nat.ltb_spec 2 a), (Nat.leb_spec a 2); try lia; done.
    - rewrite (proj2 (Nat.ltb_lt 2 a)) by lia. done.
    - rewrite (proj2 (Nat.ltb_lt 2 a)) by lia. done.
  Qed.
  Lemma show_name_eq f : dt_id f = show_name (row f, col f).
  Proof. unfold dt_id, dt_name, dt_quoted, show_name, quote. cbn [fst snd]. by rewrite <- !app_assoc. Qed.
  Lemma quoted_eq t : dt_quoted t = in_quotes t.
  Proof. done. Qed.
  Definition show_all (ss : list stmt) : text := concat (map show ss).
  Lemma show_all_app s1 s2 : show_all (s1 ++ s2) = show_all s1 ++ show_all s2.
  Proof. unfold show_all. by rewrite map_app, concat_app. Qed.
  Lemma show_all_concat ll : show_all (concat ll) = concat (map show_all ll).
  Proof. induction ll as [|l ll IH]; [done|]. cbn [concat map]. by rewrite show_all_app, IH. Qed.
  Lemma rank_text i m : dm_rank i m = show (SRank i (map (pair i) (seq 0 m))).
  Proof. unfold dm_rank. cbn [show]. rewrite map_map. assert (map (fun j => lit "; " ++ dt_id (mk i j)) (seq 0 m) = map (fun x => lit "; " ++ show_name (i, x)) (seq 0 m)) as -> by (apply map_ext; intros j; by rewrite show_name_eq). done. Qed.
  Lemma edge_text one i j cs : length cs <= a -> (forall g, g ∈ cs -> neqb g n1 = false) -> concat (imap (fun b c => dm_edge sp one i j b c) cs) = show_all (edge_stmts i j cs).
  Proof.
    unfold edge_stmts. intros Hl H1.
    assert (forall k, k + length cs <= a -> concat (imap (fun b c => dm_edge sp one i j (k + b) c) cs) =
      show_all (omap (fun p => if neqb (snd p) n0 then None else Some (SEdge (i, j) (row (snd p), col (snd p)) (style_of a (fst p)))) (imap (fun b c => (k + b, c)) cs))) as H.
    { clear Hl. induction cs as [|c cs IH]; intros k Hk; [done|]. cbn [length] in Hk. cbn [imap concat]. rewrite !Nat.add_0_r.
      cbn [omap list_omap fst snd].
      assert (imap ((fun b c0 => dm_edge sp one i j (k + b) c0) ∘ S) cs = imap (fun b c0 => dm_edge sp one i j (S k + b) c0) cs) as -> by (apply imap_ext; intros b x _; cbn; f_equal; lia).
      assert (imap ((fun b c0 => (k + b, c0)) ∘ S) cs = imap (fun b c0 => (S k + b, c0)) cs) as -> by (apply imap_ext; intros b x _; cbn; f_equal; lia).
      rewrite (IH ltac:(intros g Hg; apply H1; by right) (S k)) by lia. unfold dm_edge at 1. destruct (neqb c n0); [done|].
      rewrite (H1 c) by left. unfold show_all. cbn [map concat]. f_equal. cbn [show]. rewrite !show_name_eq, style_text by lia. done. }
    exact (H 0 Hl).
  Qed.
  Lemma node_text i j s : lit "  " ++ dt_id (mk i j) ++ lit " [label=" ++ dt_quoted (state_text s i) ++ lit "];" ++ [nl] = show (SNode (i, j) (state_text s i)).
  Proof. by rewrite show_name_eq. Qed.

  Lemma child_ok_n1 tb one k s b g : child_ok tb one k s b g -> neqb g n1 = false.
  Proof. intros [(_ & ->)|[(_ & -> & _)|(i & j & s0 & _ & Hi & -> & _)]]; [done|done|]. unfold neqb. cbn. rewrite (proj2 (Nat.eqb_neq i 0)) by lia. done. Qed.

  Definition facts (tb : nat -> list (St sp)) (one : nid) (i : nat) (chs : list (list nid)) : Prop :=
    length chs = length (tb i) /\ forall j s cs, tb i !! j = Some s -> chs !! j = Some cs -> children_ok tb one i s cs.
  Lemma facts_ext k' tb tb' one one' i chs : ext k' tb tb' -> k' <= i -> one_le one one' -> facts tb one i chs -> facts tb' one' i chs.
  Proof.
    intros He Hk Ho [H1 H2]. destruct (He i) as (l & El & Hl). rewrite (Hl Hk), app_nil_r in El. split; [by rewrite El|]. rewrite El. intros j s cs Hs Hcs.
    destruct (H2 j s cs Hs Hcs) as [L C]. split; [done|]. intros b g Hg. by eapply child_ok_ext; [| |apply C].
  Qed.
  Lemma created_trans k t1 t2 t3 (P Q R : nid -> Prop) : ext k t1 t2 -> created t1 t2 P -> created t2 t3 Q -> (forall g, P g -> R g) -> (forall g, Q g -> R g) -> created t1 t3 R.
  Proof. intros _ H1 H2 HP HQ i j Hj. destruct (decide (j < length (t2 i))); [apply HP, H1; lia|apply HQ, H2; lia]. Qed.

  Lemma zip_rev_lookup (l : list (St sp)) pre x post : zip (reverse (seq 0 (length l))) (reverse l) = pre ++ x :: post ->
    l !! fst x = Some (snd x) /\ fst x = length l - 1 - length pre /\ length pre < length l.
  Proof.
    intros E. assert (zip (reverse (seq 0 (length l))) (reverse l) !! length pre = Some x) as H by (by rewrite E, list_lookup_middle).
    apply lookup_zip_with_Some in H as (j & s & -> & Hj & Hs). cbn [fst snd].
    pose proof (lookup_lt_Some _ _ _ Hs) as Hlt. rewrite reverse_length in Hlt.
    rewrite reverse_lookup in Hj by (by rewrite seq_length). rewrite reverse_lookup in Hs by done. rewrite seq_length in Hj.
    apply lookup_seq in Hj as [-> _]. replace (length l - 1 - length pre) with (length l - S (length pre)) by lia. cbn. done.
  Qed.
  Lemma step_ok n k tb dm os : good n k tb dm -> sound tb -> 0 < k <= n -> (forall s, s ∈ tb k -> reachn k s) -> exists dm' tb' chs,
    dm_step sp state_text (dm, os) k = Some (dm', os ++ show_all (level_stmts k (tb k) chs)) /\ good n (k - 1) tb' dm' /\ sound tb' /\ ext k tb tb' /\
    one_le (dm_one _ dm) (dm_one _ dm') /\ facts tb' (dm_one _ dm') k chs /\ created tb tb' (fun g => exists cs, cs ∈ chs /\ g ∈ cs).
  Proof.
    intros HG HS Hk Hr. unfold dm_step. rewrite (g_nodes _ _ _ _ HG k) by lia. cbn [mbind option_bind]. rewrite reverse_length.
    set (l := tb k).
    destruct (ofold_inv (dm_node sp state_text k) (fun pre acc => exists tb' , good n k tb' (fst (fst acc)) /\ sound tb' /\ ext k tb tb' /\ one_le (dm_one _ dm) (dm_one _ (fst (fst acc))) /\
       snd (fst acc) = os ++ show_all (map (fun p => SNode (k, fst p) (state_text (snd p) k)) pre) /\
       (length (snd acc) = length pre /\ forall j s cs, l !! (length l - length pre + j) = Some s -> snd acc !! j = Some cs -> children_ok tb' (dm_one _ (fst (fst acc))) k s cs) /\
       created tb tb' (fun g => exists cs, cs ∈ snd acc /\ g ∈ cs)) (zip (reverse (seq 0 (length l))) (reverse l)) (dm, os, [])) as ([[dm1 os1] chs] & E & tb1 & G1 & S1 & E1 & O1 & T1 & (L1 & C1) & K1).
    - exists tb. cbn [fst snd]. split; [done|]. split; [done|]. split; [apply ext_refl|]. split; [unfold one_le; tauto|]. split; [by rewrite app_nil_r|]. split; [done|]. intros i j Hj; lia.
    - intros pre [j s] post [[dm1 os1] chs] El (tb1 & G1 & S1 & E1 & O1 & T1 & (L1 & C1) & K1). cbn [fst snd] in *. apply zip_rev_lookup in El as (Hs & Hj & Hlt). cbn [fst snd] in *.
      unfold dm_node. destruct (branches_ok n k tb1 dm1 s G1 S1) as (dm2 & tb2 & cs & E2' & G2 & S2 & E2 & O2 & C2 & K2); [apply Hr; by eapply elem_of_list_lookup_2|].
      rewrite E2'. cbn [mbind option_bind]. eexists. split; [done|]. exists tb2. cbn [fst snd]. split; [done|]. split; [done|]. split; [by eapply ext_trans|]. split; [by intros H; apply O2, O1|].
      split; [rewrite map_app, show_all_app, T1, <- app_assoc; f_equal; f_equal; unfold show_all; cbn [map concat fst snd]; rewrite app_nil_r, <- node_text; done|].
      split.
      + rewrite app_length. cbn [length]. split; [lia|]. intros jj s' cs' Hs' Hcs'. destruct jj as [|jj].
        * cbn in Hcs'. injection Hcs' as <-. replace (length l - (length pre + 1) + 0) with j in Hs' by lia. rewrite Hs in Hs'. by injection Hs' as <-.
        * cbn in Hcs'. destruct (C1 jj s' cs') as [LL CC]; [rewrite <- Hs'; f_equal; lia|done|]. split; [done|]. intros b g Hg. by eapply child_ok_ext; [| |apply CC].
      + eapply created_trans; [exact E1|exact K1|exact K2| |].
        * intros g (cs0 & H1 & H2). exists cs0. split; [by right|done].
        * intros g H. exists cs. split; [by left|done].
    - cbn [fst snd] in *. fold l in E. rewrite E. cbn [mbind option_bind].
      assert (Hz : length (zip (reverse (seq 0 (length l))) (reverse l)) = length l) by (rewrite zip_with_length, !reverse_length, seq_length; lia).
      rewrite Hz in L1, C1. rewrite Nat.sub_diag in C1. cbn [plus] in C1.
      destruct (lookup_lt_is_Some_2 (dm_uniq sp dm1) (k - 1)) as [u Eu]; [rewrite (proj2 (g_len _ _ _ _ G1)); lia|]. rewrite Eu. cbn [mbind option_bind].
      exists (Dumper sp (<[k:=[]]> (dm_nodes sp dm1)) (<[k - 1:=ht_empty]> (dm_uniq sp dm1)) (dm_one sp dm1)), tb1, chs.
      destruct (E1 k) as (lk & Ek & Zk). rewrite (Zk ltac:(lia)), app_nil_r in Ek. fold l in Ek. split.
      { do 2 f_equal. rewrite T1, <- app_assoc. f_equal. unfold level_stmts. fold l. rewrite !show_all_app. f_equal. f_equal.
        - unfold dm_edges. rewrite show_all_concat. f_equal. rewrite <- list_fmap_is_map || idtac. 
          apply list_eq. intros j. rewrite list_lookup_fmap, !list_lookup_imap. destruct (chs !! j) as [cs|] eqn:Ecs; [|done]. cbn. f_equal.
          destruct (lookup_lt_is_Some_2 l j) as [s Es]; [apply lookup_lt_Some in Ecs; lia|]. destruct (C1 j s cs Es Ecs) as [LL CC].
          apply edge_text; [lia|]. intros g Hg. apply elem_of_list_lookup in Hg as [b Hb]. by eapply child_ok_n1, CC.
        - rewrite rank_text. unfold show_all. cbn [map concat]. by rewrite app_nil_r. }
      split.
      { constructor; cbn.
        - rewrite !insert_length. apply G1.
        - intros i Hi. rewrite list_lookup_insert_ne by lia. apply G1. lia.
        - intros i Hi. rewrite list_lookup_insert_ne by lia. apply G1. lia.
        - apply G1. }
      split; [done|]. split; [done|]. split; [done|]. split; [|done]. split; [by rewrite Ek|]. rewrite Ek. done.
  Qed.

  (** the whole picture *)
  Definition body (n : nat) (tb : nat -> list (St sp)) (chs : nat -> list (list nid)) : list stmt :=
    concat (map (fun i => level_stmts i (tb i) (chs i)) (reverse (seq 1 n))).
  Lemma all_ok n (s0 : St sp) os : 0 < n -> reachn n s0 -> exists dm' tb chs,
    ofold (dm_step sp state_text) (reverse (seq 1 n)) (Dumper sp (<[n := [s0]]> (replicate (n + 1) [])) (replicate (n + 1) ht_empty) n1, os) = Some (dm', os ++ show_all (body n tb chs)) /\
    (dm_one _ dm' = n1 \/ dm_one _ dm' = mk 0 2) /\ sound tb /\ tb n = [s0] /\ (forall i, n < i -> tb i = []) /\ (forall i, 0 < i <= n -> facts tb (dm_one _ dm') i (chs i)) /\
    (forall i j s, tb i !! j = Some s -> i < n -> exists i' cs, i < i' <= n /\ cs ∈ chs i' /\ mk i j ∈ cs).
  Proof.
    intros Hn Hr. set (dm0 := Dumper _ _ _ _). set (tb0 := fun i => if i =? n then [s0] else []).
    assert (G0 : good n n tb0 dm0).
    { constructor; cbn.
      - by rewrite insert_length, !replicate_length.
      - intros i Hi. unfold tb0. destruct (Nat.eqb_spec i n) as [->|Hne]; [rewrite list_lookup_insert by (rewrite replicate_length; lia); done|].
        rewrite list_lookup_insert_ne by done. apply lookup_replicate. split; [done|lia].
      - intros i Hi. exists ht_empty. split; [apply lookup_replicate; split; [done|lia]|]. split; [by right|]. unfold tb0. rewrite (proj2 (Nat.eqb_neq i n)) by lia. done.
      - by left. }
    assert (S0 : sound tb0).
    { constructor; unfold tb0.
      - intros i s. destruct (Nat.eqb_spec i n) as [->|]; [|intros H; inversion H]. rewrite elem_of_list_singleton. intros ->. done.
      - intros i j j' s s'. destruct (Nat.eqb_spec i n) as [->|]; [|done]. intros H1 H2 _. apply list_lookup_singleton_Some in H1, H2. lia. }
    assert (forall m, m <= n -> exists dm' tb chs, ofold (dm_step sp state_text) (reverse (seq (n + 1 - m) m)) (dm0, os) = Some (dm', os ++ show_all (concat (map (fun i => level_stmts i (tb i) (chs i)) (reverse (seq (n + 1 - m) m))))) /\
      good n (n - m) tb dm' /\ sound tb /\ ext n tb0 tb /\ (forall i, n - m < i <= n -> facts tb (dm_one _ dm') i (chs i)) /\
      (forall i j s, tb i !! j = Some s -> i < n -> exists i' cs, i < i' <= n /\ n - m < i' /\ cs ∈ chs i' /\ mk i j ∈ cs)) as H.
    { induction m as [|m IH]; intros Hm.
      - exists dm0, tb0, (fun _ => []). cbn. rewrite app_nil_r, Nat.sub_0_r. split; [done|]. split; [done|]. split; [done|]. split; [apply ext_refl|]. split; [lia|].
        intros i j s H Hi. exfalso. unfold tb0 in H. rewrite (proj2 (Nat.eqb_neq i n)) in H by lia. done.
      - destruct (IH ltac:(lia)) as (dm1 & tb1 & chs & E1 & G1 & S1 & X1 & F1 & K1).
        assert (reverse (seq (n + 1 - S m) (S m)) = reverse (seq (n + 1 - m) m) ++ [n - m]) as ->.
        { cbn [seq]. rewrite reverse_cons. replace (S (n + 1 - S m)) with (n + 1 - m) by lia. by replace (n + 1 - S m) with (n - m) by lia. }
        destruct (step_ok n (n - m) tb1 dm1 (os ++ show_all (concat (map (fun i => level_stmts i (tb1 i) (chs i)) (reverse (seq (n + 1 - m) m))))) G1 S1) as (dm2 & tb2 & c2 & E2 & G2 & S2 & X2 & O2 & F2 & K2); [lia|intros s Hs; by apply S1|].
        exists dm2, tb2, (fun i => if i =? n - m then c2 else chs i). split.
        { rewrite ofold_app, E1. cbn [mbind option_bind ofold]. rewrite E2. cbn [mbind option_bind]. do 2 f_equal. rewrite <- app_assoc, <- show_all_app. f_equal. f_equal.
          rewrite map_app, concat_app. cbn [map concat]. rewrite app_nil_r, Nat.eqb_refl.
          assert (tb2 (n - m) = tb1 (n - m)) as -> by (destruct (X2 (n - m)) as (lx & -> & Z); rewrite Z by lia; apply app_nil_r). f_equal. f_equal.
          apply map_ext_in. intros i Hi. apply elem_of_list_In, elem_of_reverse, elem_of_seq in Hi. rewrite (proj2 (Nat.eqb_neq i (n - m))) by lia.
          by assert (tb2 i = tb1 i) as -> by (destruct (X2 i) as (lx & -> & Z); rewrite Z by lia; apply app_nil_r). }
        split; [by replace (n - S m) with (n - m - 1) by lia|]. split; [done|]. split; [eapply ext_trans; [exact X1|eapply ext_le; [|exact X2]; lia]|]. split.
        + intros i Hi. destruct (Nat.eqb_spec i (n - m)) as [->|Hne]; [done|]. eapply facts_ext; [exact X2| |exact O2|apply F1]; lia.
        + intros i j s Hs Hi. destruct (decide (j < length (tb1 i))) as [Hlt|Hge].
          * destruct (lookup_lt_is_Some_2 _ _ Hlt) as [s1 Hs1]. destruct (K1 i j s1 Hs1 Hi) as (i' & cs & A1 & A2 & A3 & A4). exists i', cs. split; [done|]. split; [lia|]. rewrite (proj2 (Nat.eqb_neq i' (n - m))) by lia. done.
          * destruct (K2 i j) as (cs & A1 & A2); [apply lookup_lt_Some in Hs; lia|].
            assert (i < n - m) as Him.
            { destruct (X2 i) as (lx & Ex & Z). destruct (decide (n - m <= i)) as [Hle|]; [|lia]. rewrite (Z Hle), app_nil_r in Ex. apply lookup_lt_Some in Hs. rewrite Ex in Hs. lia. }
            exists (n - m), cs. split; [lia|]. split; [lia|]. rewrite Nat.eqb_refl. done. }
    destruct (H n ltac:(lia)) as (dm' & tb & chs & E & G & S & X & F & K). replace (n + 1 - n) with 1 in E by lia. exists dm', tb, chs. split; [exact E|]. split; [apply G|]. split; [done|].
    split; [destruct (X n) as (lx & -> & Z); rewrite Z by lia; unfold tb0; by rewrite Nat.eqb_refl|].
    split; [intros i Hi; destruct (X i) as (lx & -> & Z); rewrite Z by lia; unfold tb0; rewrite (proj2 (Nat.eqb_neq i n)) by lia; done|].
    split; [intros i Hi; apply F; lia|]. intros i j s Hs Hi. destruct (K i j s Hs Hi) as (i' & cs & A1 & A2 & A3 & A4). by exists i', cs.
  Qed.
End dumping.
