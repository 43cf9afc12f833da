(** DdDumper: what the picture shows. *)
From Coq Require Import Ascii String.
From Verif Require Import Base Sem M_Table M_Hash P_Hash M_Text M_Dot S_Dot P_Dot Props_Dump.
Local Open Scope nat_scope.

Lemma head_omap_some {A B} (f : A -> option B) l x y : x ∈ l -> f x = Some y -> (forall x' y', x' ∈ l -> f x' = Some y' -> y' = y) -> head (omap f l) = Some y.
Proof.
  intros Hx Hf Hu. destruct (omap f l) as [|z zs] eqn:E.
  - exfalso. assert (y ∈ omap f l) as H by (apply elem_of_list_omap; eauto). rewrite E in H. inversion H.
  - assert (z ∈ omap f l) as H by (rewrite E; left). apply elem_of_list_omap in H as (x' & H1 & H2). cbn. f_equal. by eapply Hu.
Qed.
Lemma head_omap_none {A B} (f : A -> option B) l : (forall x y, x ∈ l -> f x <> Some y) -> head (omap f l) = None.
Proof.
  intros H. destruct (omap f l) as [|z zs] eqn:E; [done|].
  assert (z ∈ omap f l) as Hz by (rewrite E; left). apply elem_of_list_omap in Hz as (x & H1 & H2). by destruct (H x z).
Qed.

  Lemma eval_zero (p q : spec) l s s' v : zdd_eval p l 0 s v = zdd_eval q l 0 s' v /\ bdd_eval p l 0 s v = bdd_eval q l 0 s' v.
  Proof. induction l as [|l [I1 I2]]; [done|]. cbn [zdd_eval bdd_eval]. destruct (Z.eqb_spec 0 (Z.of_nat (S l))); [lia|]. by rewrite I1, I2. Qed.
  Lemma eval_neg (p q : spec) l c c' s s' v : (c < 0)%Z -> (c' < 0)%Z -> zdd_eval p l c s v = zdd_eval q l c' s' v /\ bdd_eval p l c s v = bdd_eval q l c' s' v.
  Proof.
    intros H H'. induction l as [|l [I1 I2]]; cbn [zdd_eval bdd_eval]; [by rewrite (proj2 (Z.ltb_lt c 0)), (proj2 (Z.ltb_lt c' 0))|].
    destruct (Z.eqb_spec c (Z.of_nat (S l))); [lia|]. destruct (Z.eqb_spec c' (Z.of_nat (S l))); [lia|]. by rewrite I1, I2.
  Qed.

Section drawing.
  Context (sp : spec) (Hok : spec_ok sp) (level_text : nat -> text) (state_text : St sp -> nat -> text).
  Notation a := (ar sp).
  Notation facts := (facts sp).
  Notation level_stmts := (level_stmts sp state_text).
  Context (title : text) (n : nat) (tb : nat -> list (St sp)) (one : nid) (chs : nat -> list (list nid)).
  Context (Hn : 0 < n) (Hone : one = n1 \/ one = mk 0 2) (HS : sound sp tb) (Htop : length (tb n) = 1) (Habove : forall i, n < i -> tb i = []).
  Context (HF : forall i, 0 < i <= n -> facts tb one i (chs i)).
  Context (HK : forall i j s, tb i !! j = Some s -> i < n -> exists i' cs, i < i' <= n /\ cs ∈ chs i' /\ mk i j ∈ cs).
  Definition final : list stmt :=
    map (fun i => SLevel i (level_text i)) (reverse (seq 1 n)) ++ map (fun i => SBelow (i + 1) i) (reverse (seq 1 (n - 1))) ++
    SStart title (n, 0) :: body sp state_text n tb chs ++ [SOne (0, col one)].
  Lemma final_in s : s ∈ final <-> (exists i, s = SLevel i (level_text i) /\ 1 <= i <= n) \/ (exists i, s = SBelow (i + 1) i /\ 1 <= i < n) \/ s = SStart title (n, 0) \/
    (exists i, 1 <= i <= n /\ s ∈ level_stmts i (tb i) (chs i)) \/ s = SOne (0, col one).
  Proof.
    unfold final, body. rewrite !elem_of_app, elem_of_cons, elem_of_app, elem_of_list_singleton.
    assert (forall (f : nat -> stmt) m, s ∈ map f (reverse (seq 1 m)) <-> exists i, s = f i /\ 1 <= i <= m) as HM.
    { intros f m. split.
      - intros H. apply elem_of_list_In, in_map_iff in H as (i & <- & H). apply elem_of_list_In, elem_of_reverse, elem_of_seq in H. exists i. split; [done|lia].
      - intros (i & -> & H). apply elem_of_list_In, in_map, elem_of_list_In, elem_of_reverse, elem_of_seq. lia. }
    rewrite !HM.
    assert (s ∈ concat (map (fun i => level_stmts i (tb i) (chs i)) (reverse (seq 1 n))) <-> exists i, 1 <= i <= n /\ s ∈ level_stmts i (tb i) (chs i)) as ->.
    { split.
      - intros H. apply elem_of_list_In, in_concat in H as (l & H1 & H2). apply in_map_iff in H1 as (i & <- & H). apply elem_of_list_In, elem_of_reverse, elem_of_seq in H. exists i. split; [lia|by apply elem_of_list_In].
      - intros (i & Hi & H). apply elem_of_list_In, in_concat. eexists. split; [|by apply elem_of_list_In]. apply in_map_iff. exists i. split; [done|]. apply elem_of_list_In, elem_of_reverse, elem_of_seq. lia. }
    assert ((exists i, s = SBelow (i + 1) i /\ 1 <= i <= n - 1) <-> (exists i, s = SBelow (i + 1) i /\ 1 <= i < n)) as -> by (split; intros (i & -> & ?); exists i; (split; [done|lia])).
    tauto.
  Qed.
  Lemma edge_in i j cs s : s ∈ edge_stmts sp i j cs <-> exists b g, cs !! b = Some g /\ neqb g n0 = false /\ s = SEdge (i, j) (row g, col g) (style_of a b).
  Proof.
    unfold edge_stmts. rewrite elem_of_list_omap. split.
    - intros ([b g] & H1 & H2). apply elem_of_list_lookup in H1 as [k Hk]. rewrite list_lookup_imap in Hk. apply fmap_Some in Hk as (g' & Hg & E). injection E as -> ->.
      cbn [fst snd] in H2. destruct (neqb g' n0) eqn:E; [done|]. injection H2 as <-. by exists k, g'.
    - intros (b & g & H1 & H2 & ->). exists (b, g). split; [|cbn [fst snd]; by rewrite H2]. apply elem_of_list_lookup. exists b. by rewrite list_lookup_imap, H1.
  Qed.
  Lemma level_in i l ch s : s ∈ level_stmts i l ch <-> (exists j x, l !! j = Some x /\ s = SNode (i, j) (state_text x i)) \/
    (exists j cs, ch !! j = Some cs /\ s ∈ edge_stmts sp i j cs) \/ s = SRank i (map (pair i) (seq 0 (length l))).
  Proof.
    unfold P_Dot.level_stmts. rewrite !elem_of_app, elem_of_list_singleton.
    assert (s ∈ map (fun p => SNode (i, fst p) (state_text (snd p) i)) (zip (reverse (seq 0 (length l))) (reverse l)) <-> exists j x, l !! j = Some x /\ s = SNode (i, j) (state_text x i)) as ->.
    { split.
      - intros H. apply elem_of_list_In, in_map_iff in H as ([j x] & <- & H). apply elem_of_list_In, elem_of_list_split in H as (l1 & l2 & H). apply zip_rev_lookup in H as (H & _). cbn [fst snd] in *. by exists j, x.
      - intros (j & x & H & ->). apply elem_of_list_In, in_map_iff. exists (j, x). split; [done|]. apply elem_of_list_In, elem_of_list_lookup.
        pose proof (lookup_lt_Some _ _ _ H). exists (length l - 1 - j). apply lookup_zip_with_Some. exists j, x. split; [done|].
        rewrite !reverse_lookup by (rewrite ?seq_length; lia). rewrite seq_length. replace (length l - S (length l - 1 - j)) with j by lia. split; [|done]. apply lookup_seq. lia. }
    assert (s ∈ concat (imap (fun j cs => edge_stmts sp i j cs) ch) <-> exists j cs, ch !! j = Some cs /\ s ∈ edge_stmts sp i j cs) as ->.
    { split.
      - intros H. apply elem_of_list_In, in_concat in H as (l' & H1 & H2). apply elem_of_list_In, elem_of_list_lookup in H1 as (j & Hj). rewrite list_lookup_imap in Hj. apply fmap_Some in Hj as (cs & Hcs & ->). exists j, cs. split; [done|by apply elem_of_list_In].
      - intros (j & cs & Hj & H). apply elem_of_list_In, in_concat. eexists. split; [|by apply elem_of_list_In]. apply elem_of_list_In, elem_of_list_lookup. exists j. by rewrite list_lookup_imap, Hj. }
    done.
  Qed.
  Lemma node_final x t : SNode x t ∈ final <-> exists s, tb (fst x) !! snd x = Some s /\ t = state_text s (fst x).
  Proof.
    rewrite final_in. split.
    - intros [(i & E & _)|[(i & E & _)|[E|[(i & Hi & H)|E]]]]; try discriminate E. apply level_in in H as [(j & s & Hs & E)|[(j & cs & _ & H)|E]]; [|apply edge_in in H as (b & g & _ & _ & E); discriminate E|discriminate E].
      injection E as -> ->. by exists s.
    - intros (s & Hs & ->). right; right; right; left. destruct x as [i j]. cbn [fst snd] in *. exists i. destruct (s_reach _ _ HS i s) as [H1 _]; [by eapply elem_of_list_lookup_2|].
      split; [|apply level_in; left; by exists j, s]. split; [lia|]. destruct (decide (n < i)) as [H|]; [|lia]. by rewrite Habove in Hs.
  Qed.
  Lemma edge_final x y st : SEdge x y st ∈ final <-> exists s cs b g, 0 < fst x <= n /\ tb (fst x) !! snd x = Some s /\ chs (fst x) !! snd x = Some cs /\ cs !! b = Some g /\ b < a /\
    neqb g n0 = false /\ y = (row g, col g) /\ st = style_of a b /\ child_ok sp tb one (fst x) s b g.
  Proof.
    rewrite final_in. split.
    - intros [(i & E & _)|[(i & E & _)|[E|[(i & Hi & H)|E]]]]; try discriminate E. apply level_in in H as [(j & s & Hs & E)|[(j & cs & Hcs & H)|E]]; [discriminate E| |discriminate E].
      apply edge_in in H as (b & g & H1 & H2 & E). injection E as -> -> ->. cbn [fst snd]. destruct (HF i ltac:(lia)) as [HL HC].
      destruct (lookup_lt_is_Some_2 (tb i) j) as [s Hs]; [apply lookup_lt_Some in Hcs; lia|]. destruct (HC j s cs Hs Hcs) as [L C]. exists s, cs, b, g. pose proof (lookup_lt_Some _ _ _ H1). split_and!; try done; try lia. by apply C.
    - intros (s & cs & b & g & H0 & H1 & H2 & H3 & H4 & H5 & -> & -> & H6). right; right; right; left. destruct x as [i j]. cbn [fst snd] in *. exists i. split; [lia|]. apply level_in. right; left. exists j, cs. split; [done|]. apply edge_in. by exists b, g.
  Qed.
  Lemma style_inj b b' : a <= 4 -> b < a -> b' < a -> style_of a b = style_of a b' -> b = b'.
  Proof. intros Ha Hb Hb' E. destruct b as [|[|[|[|b]]]], b' as [|[|[|[|b']]]]; try lia; cbn in E; destruct (a <=? 2); discriminate E. Qed.
  Lemma arrow_final i j s cs b g : a <= 4 -> 0 < i <= n -> tb i !! j = Some s -> chs i !! j = Some cs -> cs !! b = Some g -> b < a ->
    arrow final (i, j) (style_of a b) = if neqb g n0 then None else Some (row g, col g).
  Proof.
    intros Ha Hi Hs Hcs Hg Hb. unfold arrow.
    assert (forall z y', z ∈ final -> match z with SEdge x' y st' => if decide ((i, j) = x' /\ style_of a b = st') then Some y else None | _ => None end = Some y' -> neqb g n0 = false /\ y' = (row g, col g)) as Hall.
    { intros z y' Hz E. destruct z as [| | | | |x' y st'| |]; try discriminate E. destruct (decide _) as [[<- <-]|]; [|discriminate E]. injection E as ->.
      apply edge_final in Hz as (s2 & cs2 & b2 & g2 & H0 & H1 & H2 & H3 & H4 & H5 & H6 & H7 & _). cbn [fst snd] in *. apply style_inj in H7 as <-; try done. rewrite Hcs in H2. injection H2 as <-. rewrite Hg in H3. by injection H3 as <-. }
    destruct (neqb g n0) eqn:E.
    - apply head_omap_none. intros z y Hz E'. by destruct (Hall z y Hz E').
    - apply (head_omap_some _ _ (SEdge (i, j) (row g, col g) (style_of a b))).
      + apply edge_final. cbn [fst snd]. destruct (HF i ltac:(lia)) as [HL HC]. destruct (HC j s cs Hs Hcs) as [L C]. exists s, cs, b, g. split_and!; try done; try lia. by apply C.
      + rewrite decide_True by done. done.
      + intros z y' Hz Hy. by apply (Hall z).
  Qed.
  Lemma one_final x : is_one final x = bool_decide (x = (0, col one)).
  Proof.
    unfold is_one. destruct (bool_decide_reflect (x = (0, col one))) as [->|Hne].
    - apply existsb_exists. exists (SOne (0, col one)). split; [apply elem_of_list_In, final_in; do 4 right; done|by apply bool_decide_eq_true].
    - apply not_true_iff_false. intros H. apply existsb_exists in H as (z & Hz & E). apply elem_of_list_In, final_in in Hz. destruct z; try discriminate E. apply bool_decide_eq_true in E as <-.
      destruct Hz as [(i & E & _)|[(i & E & _)|[E|[(i & Hi & H)|E]]]]; try discriminate E; [|congruence].
      apply level_in in H as [(j & s & _ & E)|[(j & cs & _ & H)|E]]; [discriminate E| |discriminate E]. apply edge_in in H as (b & g & _ & _ & E); discriminate E.
  Qed.
  Lemma start_final : start final = Some (n, 0).
  Proof.
    apply (head_omap_some _ _ (SStart title (n, 0))); [apply final_in; auto|done|]. intros z y Hz E. destruct z; try discriminate E. injection E as <-.
    apply final_in in Hz as [(i & E & _)|[(i & E & _)|[E|[(i & Hi & H)|E]]]]; try discriminate E; [congruence|].
    apply level_in in H as [(j & s & _ & E)|[(j & cs & _ & H)|E]]; [discriminate E| |discriminate E]. apply edge_in in H as (b & g & _ & _ & E); discriminate E.
  Qed.

  Lemma at_inner i j : 0 < i -> at_node final (Some (i, j)) = (Z.of_nat i, Some (i, j)).
  Proof. intros Hi. cbn. rewrite one_final, bool_decide_false by (intros E; injection E; lia). done. Qed.
  Lemma node_eval v : a <= 4 -> vec_ok a v -> forall l i j s, 0 < i <= n -> tb i !! j = Some s ->
    zdd_eval (picture a final) l (Z.of_nat i) (Some (i, j)) v = zdd_eval sp l (Z.of_nat i) s v /\ bdd_eval (picture a final) l (Z.of_nat i) (Some (i, j)) v = bdd_eval sp l (Z.of_nat i) s v.
  Proof.
    intros Ha Hv. induction l as [|l IH]; intros i j s Hi Hs; [done|]. cbn [zdd_eval bdd_eval].
    destruct (Z.eqb_spec (Z.of_nat i) (Z.of_nat (S l))) as [E|Hne].
    - apply Nat2Z.inj in E as ->. set (b := v (S l)). assert (Hb : b < a) by apply Hv.
      destruct (HF (S l) Hi) as [HL HC]. destruct (lookup_lt_is_Some_2 (chs (S l)) j) as [cs Hcs]; [apply lookup_lt_Some in Hs; lia|]. destruct (HC j s cs Hs Hcs) as [L C].
      destruct (lookup_lt_is_Some_2 cs b) as [g Hg]; [lia|]. specialize (C b g Hg).
      assert (get_child (picture a final) (Some (S l, j)) (Z.of_nat (S l)) b = at_node final (arrow final (S l, j) (style_of a b))) as -> by done.
      rewrite (arrow_final (S l) j s cs b g) by done.
      destruct C as [(E0 & ->)|[(E0 & -> & E1)|(i' & j' & s' & E0 & Hi' & -> & Hs' & He)]]; destruct (get_child sp s (Z.of_nat (S l)) b) as [c t] eqn:Ec; cbn [fst snd] in *.
      + subst c. cbn. apply eval_zero.
      + cbn [neqb row col]. cbn. rewrite one_final, bool_decide_true by (by rewrite E1). by apply eval_neg.
      + subst c. assert (neqb (mk i' j') n0 = false) as -> by (unfold neqb; cbn; rewrite (proj2 (Nat.eqb_neq i' 0)) by lia; done). cbn [row col mk]. rewrite at_inner by lia. cbn [fst snd].
        destruct (IH i' j' s' ltac:(lia) Hs') as [I1 I2]. rewrite I1, I2.
        destruct He as [->|He]; [done|]. apply (run_zdd _ _ a v Hv). apply (ok_equal sp Hok); [by apply (s_reach _ _ HS), (elem_of_list_lookup_2 _ j')| |done].
        assert (reach sp (Z.of_nat (S l)) s) as Hr by (by apply (s_reach _ _ HS), (elem_of_list_lookup_2 _ j)). pose proof (reach_child sp _ _ b Hr Hb) as H. rewrite Ec in H. apply H. cbn. lia.
    - destruct (IH i j s Hi Hs) as [-> ->]. done.
  Qed.
  Lemma root_eval s0 : tb n = [s0] -> a <= 4 -> fst (get_root sp) = Z.of_nat n -> snd (get_root sp) = s0 -> forall m v, vec_ok a v ->
    zdd_sem (picture a final) m v = zdd_sem sp m v /\ bdd_sem (picture a final) m v = bdd_sem sp m v.
  Proof.
    intros H0 Ha H1 H2 m v Hv. unfold zdd_sem, bdd_sem. rewrite H1, H2. assert (get_root (picture a final) = (Z.of_nat n, Some (n, 0))) as -> by (cbn [get_root picture]; rewrite start_final; by apply at_inner).
    apply node_eval; try done. by rewrite H0.
  Qed.

  Definition state (x : name) : option (St sp) := tb (fst x) !! snd x.
  Definition drawn_name (s : stmt) : option name := match s with SNode x _ => Some x | _ => None end.
  Lemma nodup_levels {A} (f : nat -> list A) (p : A -> nat) l : NoDup l -> (forall i, NoDup (f i)) -> (forall i x, x ∈ f i -> p x = i) -> NoDup (concat (map f l)).
  Proof.
    intros Hl Hf Hp. induction Hl as [|i l Hi Hl IH]; [constructor|]. cbn [map concat]. apply NoDup_app. split; [apply Hf|]. split; [|done].
    intros x Hx H. apply Hp in Hx. apply elem_of_list_In, in_concat in H as (l' & H1 & H2). apply in_map_iff in H1 as (i' & <- & H1). apply elem_of_list_In, Hp in H2. apply Hi, elem_of_list_In. by rewrite <- Hx, H2.
  Qed.
  Lemma omap_concat {A B} (f : A -> option B) ll : omap f (concat ll) = concat (map (omap f) ll).
  Proof. induction ll as [|l ll IH]; [done|]. cbn [concat map]. by rewrite omap_app, IH. Qed.
  Lemma omap_nil {A B} (f : A -> option B) l : (forall x, x ∈ l -> f x = None) -> omap f l = [].
  Proof. induction l as [|x l IH]; intros H; [done|]. cbn. rewrite H by left. apply IH. intros y Hy. apply H. by right. Qed.
  Lemma once_final : NoDup (omap drawn_name final).
  Proof.
    unfold final. rewrite !omap_app. rewrite (omap_nil _ (map _ _)) by (intros x Hx; apply elem_of_list_In, in_map_iff in Hx as (? & <- & _); done).
    rewrite (omap_nil _ (map (fun i => SBelow (i + 1) i) _)) by (intros x Hx; apply elem_of_list_In, in_map_iff in Hx as (? & <- & _); done).
    cbn [app]. assert (omap drawn_name (SStart title (n, 0) :: body sp state_text n tb chs ++ [SOne (0, col one)]) = omap drawn_name (body sp state_text n tb chs)) as -> by (cbn; rewrite omap_app; cbn; by rewrite app_nil_r).
    unfold body. rewrite omap_concat, map_map. apply (nodup_levels _ fst).
    - rewrite reverse_Permutation. apply NoDup_seq.
    - intros i. unfold P_Dot.level_stmts. rewrite !omap_app. rewrite (omap_nil _ (concat _)).
      + cbn. rewrite app_nil_r.
        assert (forall zs : list (nat * St sp), NoDup (map fst zs) -> NoDup (omap drawn_name (map (fun p => SNode (i, fst p) (state_text (snd p) i)) zs))) as H.
        { intros zs. induction zs as [|[j x] zs IH]; [intros _; constructor|]. cbn [map fst snd]. intros H. inversion H as [|? ? H1 H2]. subst. cbn. constructor; [|by apply IH].
          intros H3. apply elem_of_list_omap in H3 as (y & H3 & H4). apply elem_of_list_In, in_map_iff in H3 as ([j' x'] & <- & H3). cbn in H4. injection H4 as ->. apply H1. apply elem_of_list_In, in_map_iff. by exists (j, x'). }
        apply H. assert (map fst (zip (reverse (seq 0 (length (tb i)))) (reverse (tb i))) = reverse (seq 0 (length (tb i)))) as -> by (apply (fst_zip _ _); rewrite !reverse_length, seq_length; lia).
        rewrite reverse_Permutation. apply NoDup_seq.
      + intros x Hx. apply elem_of_list_In, in_concat in Hx as (l' & H1 & H2). apply elem_of_list_In, elem_of_list_lookup in H1 as (j & Hj). rewrite list_lookup_imap in Hj. apply fmap_Some in Hj as (cs & _ & ->).
        apply elem_of_list_In, edge_in in H2 as (b & g & _ & _ & ->). done.
    - intros i x Hx. apply elem_of_list_omap in Hx as (z & Hz & E). destruct z; try discriminate E. injection E as ->. apply level_in in Hz as [(j & s & _ & E)|[(j & cs & _ & H)|E]]; [by injection E as -> _| |discriminate E]. apply edge_in in H as (b & g & _ & _ & E); discriminate E.
  Qed.
  Lemma drawn_final : fst (get_root sp) = Z.of_nat n -> tb n = [snd (get_root sp)] -> well_drawn sp level_text state_text final state.
  Proof.
    intros R1 R2. constructor.
    - intros x t. apply node_final.
    - exact once_final.
    - intros x s Hx. unfold state in Hx. by apply (s_reach _ _ HS), (elem_of_list_lookup_2 _ (snd x)).
    - intros [i j] [i' j'] s s' E H1 H2 H3. cbn in E. subst i'. unfold state in *. cbn [fst snd] in *. f_equal. by eapply (s_distinct _ _ HS i).
    - intros x y st H. apply edge_final in H as (s & cs & b & g & H0 & H1 & H2 & H3 & H4 & H5 & -> & -> & C). split; [by exists s|].
      destruct C as [(_ & ->)|[(_ & -> & E)|(i & j & s0 & _ & Hi & -> & Hs & _)]]; [done| |]; cbn [row col mk fst snd].
      + split; [lia|]. left. rewrite one_final, E. by apply bool_decide_eq_true.
      + split; [lia|]. right. by exists s0.
    - intros [i j] [s Hs]. unfold state in Hs. cbn [fst snd] in Hs. destruct (s_reach _ _ HS i s ltac:(by eapply elem_of_list_lookup_2)) as [Hi _]. destruct (decide (i = n)) as [->|Hne].
      + left. rewrite start_final. do 2 f_equal. apply lookup_lt_Some in Hs. lia.
      + right. assert (i < n) as Hlt by (destruct (decide (n < i)) as [H|]; [by rewrite Habove in Hs|lia]). destruct (HK i j s Hs Hlt) as (i' & cs & Hi' & Hcs & Hg).
        apply elem_of_list_lookup in Hcs as [j' Hj']. apply elem_of_list_lookup in Hg as [b Hb]. destruct (HF i' ltac:(lia)) as [HL HC]. destruct (lookup_lt_is_Some_2 (tb i') j') as [s' Hs']; [apply lookup_lt_Some in Hj'; lia|].
        destruct (HC j' s' cs Hs' Hj') as [L C]. exists (i', j'), (style_of a b). apply edge_final. cbn [fst snd]. pose proof (lookup_lt_Some _ _ _ Hb). exists s', cs, b, (mk i j). split; [lia|]. do 3 (split; [done|]). split; [lia|].
        split; [unfold neqb; cbn; rewrite (proj2 (Nat.eqb_neq i 0)) by lia; done|]. split; [done|]. split; [done|]. by apply C.
    - intros i xs H [i' j]. apply final_in in H as [(k & E & _)|[(k & E & _)|[E|[(k & Hk & H)|E]]]]; try discriminate E.
      apply level_in in H as [(j' & s & _ & E)|[(j' & cs & _ & H)|E]]; [discriminate E|apply edge_in in H as (b & g & _ & _ & E); discriminate E|]. injection E as -> ->. unfold state. cbn [fst snd].
      rewrite lookup_lt_is_Some. split.
      + intros H. apply elem_of_list_In, in_map_iff in H as (j0 & E & H). injection E as -> ->. apply in_seq in H. split; [done|lia].
      + intros [-> H]. apply elem_of_list_In, in_map, in_seq. lia.
    - intros i t. rewrite final_in. unfold top_level. rewrite R1, Nat2Z.id. split.
      + intros [(k & E & H)|[(k & E & _)|[E|[(k & Hk & H)|E]]]]; try discriminate E; [injection E as -> ->; by split|].
        apply level_in in H as [(j' & s & _ & E)|[(j' & cs & _ & H)|E]]; [discriminate E|apply edge_in in H as (b & g & _ & _ & E); discriminate E|discriminate E].
      + intros [-> H]. left. by exists i.
    - intros Hc i s Hr. remember (Z.of_nat i) as c eqn:Ec. revert i Ec. induction Hr as [Hp|c s b Hr IH Hb Hp]; intros i Ec.
      + exists (n, 0), (snd (get_root sp)). cbn [fst]. split; [lia|]. unfold state. cbn [fst snd]. rewrite R2. split; [done|]. apply (cg_refl _ Hc). by apply reach_root.
      + assert (0 < c)%Z as Hcp by (pose proof (ok_level sp Hok _ _ _ Hr Hb); lia). destruct (Z_of_nat_complete c ltac:(lia)) as [k ->]. destruct (IH k eq_refl) as ([k' j] & s' & Ek & Hs' & He). cbn in Ek. subst k'. unfold state in Hs'. cbn [fst snd] in Hs'.
        destruct (s_reach _ _ HS k s' ltac:(by eapply elem_of_list_lookup_2)) as [Hk Hr']. assert (k <= n) as Hkn by (destruct (decide (n < k)) as [H|]; [by rewrite Habove in Hs'|lia]).
        destruct (HF k ltac:(lia)) as [HL HC]. destruct (lookup_lt_is_Some_2 (chs k) j) as [cs Hcs]; [apply lookup_lt_Some in Hs'; lia|]. destruct (HC j s' cs Hs' Hcs) as [L C]. destruct (lookup_lt_is_Some_2 cs b) as [g Hg]; [lia|]. specialize (C b g Hg).
        destruct (cg_child _ Hc _ s' s b Hr' Hr Hb He) as [E1 E2]. rewrite <- E1 in Ec, Hp |- *. pose proof (reach_child sp _ _ b Hr' Hb Hp) as Hrc'. pose proof (reach_child sp _ _ b Hr Hb ltac:(by rewrite <- E1)) as Hrc. rewrite <- E1 in Hrc.
        destruct C as [(E0 & _)|[(E0 & _)|(i' & j' & s0 & E0 & Hi' & _ & Hs0 & H0)]]; [lia|lia|]. assert (i' = i) as -> by lia. exists (i, j'), s0. split; [done|]. split; [done|]. specialize (E2 Hp). rewrite Ec in *.
        destruct H0 as [->|H0]; [done|]. eapply (cg_trans _ Hc); [|exact Hrc'|exact Hrc|exact H0|exact E2]. by apply (s_reach _ _ HS), (elem_of_list_lookup_2 _ j').
  Qed.
End drawing.
