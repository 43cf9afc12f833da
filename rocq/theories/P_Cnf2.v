(** The specification CnfToZtdd: one step. *)
From stdpp Require Import sorting.
From Verif Require Import Base Sem M_Cnf S_Cnf P_Cnf1.
Local Open Scope Z_scope.

(** ** std::lower_bound *)
Lemma lb_ok before cnf fuel count first m : (count <= fuel)%nat -> (first <= m <= first + count)%nat -> (first + count <= length cnf)%nat ->
  (forall i c, (first <= i < m)%nat -> cnf !! i = Some c -> before c = true) ->
  (forall i c, (m <= i < first + count)%nat -> cnf !! i = Some c -> before c = false) ->
  lower_bound fuel before cnf first count = Some m.
Proof.
  revert count first. induction fuel as [|fuel IH]; intros count first Hf Hm Hl H1 H2.
  - destruct count; [|lia]. cbn. f_equal. lia.
  - destruct count as [|k]; [cbn; f_equal; lia|]. cbn [lower_bound]. set (count := S k) in *. assert (count / 2 < count)%nat as Hd by (apply Nat.div_lt; unfold count; lia).
    destruct (cnf !! (first + count / 2)%nat) as [c|] eqn:Ec; [|apply lookup_ge_None in Ec; lia]. cbn [mbind option_bind]. destruct (before c) eqn:Eb.
    + assert (first + count / 2 < m)%nat. { destruct (decide (first + count / 2 < m)%nat); [done|]. rewrite (H2 (first + count / 2)%nat c) in Eb; [done|lia|done]. }
      apply IH; try lia.
      * intros i c' Hi. apply H1. lia.
      * intros i c' Hi. apply H2. lia.
    + assert (m <= first + count / 2)%nat. { destruct (decide (first + count / 2 < m)%nat); [|lia]. rewrite (H1 (first + count / 2)%nat c) in Eb; [done|lia|done]. }
      apply IH; try lia.
      * intros i c' Hi. apply H1. lia.
      * intros i c' Hi. apply H2. lia.
Qed.
Lemma between_lookup (cnf : list clause) b e i : (i < e - b)%nat -> between cnf b e !! i = cnf !! (b + i)%nat.
Proof. intros Hi. unfold between. rewrite lookup_take by done. by rewrite lookup_drop. Qed.
Lemma between_length (cnf : list clause) b e : (e <= length cnf)%nat -> length (between cnf b e) = (e - b)%nat.
Proof. intros. unfold between. rewrite take_length, drop_length. lia. Qed.
Lemma between_app (cnf : list clause) b e A B : (b <= e <= length cnf)%nat -> between cnf b e = A ++ B ->
  (b + length A <= e)%nat /\ between cnf b (b + length A) = A /\ between cnf (b + length A) e = B.
Proof.
  intros Hb E. pose proof (between_length cnf b e ltac:(lia)) as Hl. rewrite E, app_length in Hl. split; [lia|]. unfold between in *. split.
  - replace (b + length A - b)%nat with (length A) by lia. assert (A = take (length A) (take (e - b) (drop b cnf))) as H by (by rewrite E, take_app). rewrite take_take in H. rewrite H at 2. f_equal. lia.
  - assert (B = drop (length A) (take (e - b) (drop b cnf))) as H by (by rewrite E, drop_app). rewrite skipn_firstn_comm, drop_drop in H. rewrite H. f_equal. lia.
Qed.
Lemma search_ok cnf pos b e x A B : (b <= e <= length cnf)%nat -> between cnf b e = A ++ B ->
  Forall (fun c => searcher pos c x = true) A -> Forall (fun c => searcher pos c x = false) B -> search cnf pos b e x = Some (b + length A)%nat.
Proof.
  intros Hb E HA HB. unfold search. pose proof (between_length cnf b e ltac:(lia)) as Hl. rewrite E, app_length in Hl.
  apply lb_ok; [lia|lia|lia| |].
  - intros i c Hi Hc. rewrite Forall_forall in HA. apply HA. replace i with (b + (i - b))%nat in Hc by lia. rewrite <- (between_lookup cnf b e), E, lookup_app_l in Hc by lia. by eapply elem_of_list_lookup_2.
  - intros i c Hi Hc. rewrite Forall_forall in HB. apply HB. replace i with (b + (i - b))%nat in Hc by lia. rewrite <- (between_lookup cnf b e), E, lookup_app_r in Hc by lia. by eapply elem_of_list_lookup_2.
Qed.
Lemma searcher_drop pos c x : searcher pos c x = searcher 0 (drop pos c) x.
Proof. unfold searcher. rewrite lookup_drop. by rewrite Nat.add_0_r. Qed.

(** ** the order of the clauses and the order of the search *)
Lemma sorted_partition (g : clause -> bool) L : (forall a b, clt a b -> g b = true -> g a = true) -> StronglySorted clt L ->
  exists A B, L = A ++ B /\ Forall (fun c => g c = true) A /\ Forall (fun c => g c = false) B.
Proof.
  intros Hg. induction 1 as [|a L HS IH HF]; [by exists [], []|]. destruct (g a) eqn:E.
  - destruct IH as (A & B & -> & HA & HB). exists (a :: A), B. split; [done|]. split; [by constructor|done].
  - exists [], (a :: L). split; [done|]. split; [constructor|]. constructor; [done|]. rewrite Forall_forall in *. intros c Hc. destruct (g c) eqn:Ec; [|done]. rewrite (Hg a c) in E; [done|by apply HF|done].
Qed.
(** what the searcher finds, for a variable v > 0 *)
Lemma neg_spec v c : 0 < v -> searcher 0 c (- v) = true <-> match c with [] => True | x :: _ => v < Z.abs x end.
Proof.
  intros Hv. unfold searcher. destruct c as [|x c]; [done|]. cbn [lookup list_lookup]. destruct (Z.eqb_spec x (- - v)); rewrite Z.ltb_lt; lia.
Qed.
Lemma pos_spec v c : 0 < v -> searcher 0 c v = true <-> match c with [] => True | x :: _ => v < Z.abs x \/ x = - v end.
Proof.
  intros Hv. unfold searcher. destruct c as [|x c]; [done|]. cbn [lookup list_lookup]. destruct (Z.eqb_spec x (- v)); rewrite Z.ltb_lt; lia.
Qed.
Lemma clt_heads x a y b : clt (x :: a) (y :: b) -> Z.abs y < Z.abs x \/ x = - y /\ x < y \/ x = y /\ clt a b.
Proof.
  unfold clt. cbn [clause_cmp]. destruct (Z.eqb_spec x (- y)); [rewrite Z.ltb_lt; lia|]. destruct (Z.eqb_spec (Z.abs x) (Z.abs y)); cbn [negb]; [|rewrite Z.ltb_lt; lia]. intros H. right. right. split; [lia|done].
Qed.
Lemma clt_nil a : ~ clt a [].
Proof. unfold clt. destruct a; done. Qed.
Lemma neg_down v a b : 0 < v -> clt a b -> searcher 0 b (- v) = true -> searcher 0 a (- v) = true.
Proof.
  intros Hv Hl. rewrite !neg_spec by done. destruct b as [|y b]; [by apply clt_nil in Hl|]. destruct a as [|x a]; [done|]. apply clt_heads in Hl. lia.
Qed.
Lemma pos_down v a b : 0 < v -> clt a b -> searcher 0 b v = true -> searcher 0 a v = true.
Proof.
  intros Hv Hl. rewrite !pos_spec by done. destruct b as [|y b]; [by apply clt_nil in Hl|]. destruct a as [|x a]; [done|]. apply clt_heads in Hl. lia.
Qed.

(** ** lists of rests of clauses *)
Section abs.
  Context (nv : nat).
  Definition linv (L : list clause) : Prop := StronglySorted clt L /\ Forall (canon nv) L.
  Definition lcode (L : list clause) : Z :=
    match L with
    | [] => 0
    | [[]] => -1
    | _ => match last L with Some (x :: _) => Z.of_nat nv - Z.abs x + 1 | _ => 0 end
    end.
  Definition lchild (v : Z) (value : nat) (L : list clause) : list clause :=
    match value with
    | 0%nat => List.filter (fun c => searcher 0 c (- v)) L
    | 1%nat => map tail (List.filter (fun c => negb (searcher 0 c (- v)) && searcher 0 c v) L)
    | _ => map tail (List.filter (fun c => negb (searcher 0 c v)) L)
    end.
  Lemma last_cases L : linv L -> L = [] \/ L = [[]] \/ exists L' x c, L = L' ++ [x :: c] /\ lcode L = Z.of_nat nv - Z.abs x + 1.
  Proof.
    intros [HS HC]. destruct L as [|c L _] using rev_ind; [by left|]. right. destruct c as [|x c].
    - left. destruct L as [|a L]; [done|]. exfalso. inversion HS as [|? ? _ HF]; subst. rewrite Forall_app, Forall_singleton in HF. destruct HF as [_ HF]. by apply clt_nil in HF.
    - right. exists L, x, c. split; [done|]. unfold lcode. rewrite last_snoc. destruct L as [|a [|b L]]; cbn [app]; [done| |]; by destruct a.
  Qed.
  Lemma sorted_last L c : StronglySorted clt (L ++ [c]) -> Forall (fun a => clt a c) L.
  Proof. induction L as [|a L IH]; cbn [app]; inversion 1 as [|? ? HS HF]; subst; constructor; [|by apply IH]. rewrite Forall_app, Forall_singleton in HF. apply HF. Qed.
  (** the variables of the clauses are at or below the level *)
  Lemma lcode_bound L c y : linv L -> c ∈ L -> y ∈ c -> 0 < lcode L /\ Z.of_nat nv - Z.abs y + 1 <= lcode L.
  Proof.
    intros HL Hc Hy. destruct (last_cases L HL) as [->|[->|(L' & x & d & -> & ->)]].
    - by apply elem_of_nil in Hc.
    - apply elem_of_list_singleton in Hc as ->. by apply elem_of_nil in Hy.
    - destruct HL as [HS HC]. rewrite Forall_app, Forall_singleton in HC. destruct HC as [HC Hx]. pose proof (sorted_last _ _ HS) as HF. rewrite Forall_forall in HF, HC.
      apply canon_cons in Hx as (X1 & X2 & X3). split; [lia|]. rewrite Forall_forall in X3. apply elem_of_app in Hc as [Hc|Hc].
      + pose proof (HF c Hc) as Hl. pose proof (HC c Hc) as Hcc. destruct c as [|z c]; [by apply elem_of_nil in Hy|]. apply clt_heads in Hl. apply canon_cons in Hcc as (_ & _ & Z3). rewrite Forall_forall in Z3.
        apply elem_of_cons in Hy as [->|Hy]; [lia|]. apply Z3 in Hy. lia.
      + apply elem_of_list_singleton in Hc as ->. apply elem_of_cons in Hy as [->|Hy]; [lia|]. apply X3 in Hy. lia.
  Qed.
  (** positive codes are levels *)
  Lemma lcode_range L : linv L -> -1 <= lcode L <= Z.of_nat nv /\ (lcode L <= 0 -> L = [] \/ L = [[]]).
  Proof.
    intros HL. destruct (last_cases L HL) as [->|[->|(L' & x & d & E & ->)]]; [cbn; split; [lia|by left]|cbn; split; [lia|by right]|].
    destruct HL as [_ HC]. rewrite E, Forall_app, Forall_singleton in HC. destruct HC as [_ Hx]. apply canon_cons in Hx as (X1 & _). lia.
  Qed.
  Lemma lcode_below L v : linv L -> v <= Z.of_nat nv -> (forall c y, c ∈ L -> y ∈ c -> v < Z.abs y) -> lcode L < Z.of_nat nv - v + 1.
  Proof.
    intros HL Hv H. destruct (last_cases L HL) as [->|[->|(L' & x & d & E & ->)]]; [cbn; lia|cbn; lia|].
    assert (v < Z.abs x); [|lia]. apply (H (x :: d)); [|left]. rewrite E. apply elem_of_app. right. left.
  Qed.
  Lemma filter_elem (f : clause -> bool) L c : c ∈ List.filter f L <-> c ∈ L /\ f c = true.
  Proof. rewrite !elem_of_list_In. apply filter_In. Qed.
  (** what the children contain *)
  Lemma lchild_0 v L t : 0 < v -> t ∈ lchild v 0 L <-> t ∈ L /\ match t with [] => True | x :: _ => v < Z.abs x end.
  Proof. intros Hv. cbn [lchild]. rewrite filter_elem, neg_spec by done. done. Qed.
  Lemma lchild_1 v L t : 0 < v -> t ∈ lchild v 1 L <-> - v :: t ∈ L.
  Proof.
    intros Hv. cbn [lchild]. rewrite elem_of_list_fmap. setoid_rewrite filter_elem. setoid_rewrite andb_true_iff. setoid_rewrite negb_true_iff. setoid_rewrite <- not_true_iff_false. setoid_rewrite neg_spec; [|done]. setoid_rewrite pos_spec; [|done]. split.
    - intros (c & -> & Hc & H1 & H2). destruct c as [|x c]; [done|]. cbn [tail]. destruct H2 as [H2| ->]; [done|done].
    - intros Hc. exists (- v :: t). split; [done|]. split; [done|]. split; [lia|by right].
  Qed.
  Lemma lchild_2 v L t : 0 < v -> linv L -> lcode L = Z.of_nat nv - v + 1 -> t ∈ lchild v 2 L <-> v :: t ∈ L.
  Proof.
    intros Hv HL Hl. cbn [lchild]. rewrite elem_of_list_fmap. setoid_rewrite filter_elem. setoid_rewrite negb_true_iff. setoid_rewrite <- not_true_iff_false. setoid_rewrite pos_spec; [|done]. split.
    - intros (c & -> & Hc & H2). destruct c as [|x c]; [by destruct H2|]. cbn [tail]. destruct (lcode_bound L (x :: c) x HL Hc) as [_ Hb]; [left|]. assert (x = v) as -> by lia. done.
    - intros Hc. exists (v :: t). split; [done|]. split; [done|]. lia.
  Qed.
  Lemma sorted_filter (f : clause -> bool) L : StronglySorted clt L -> StronglySorted clt (List.filter f L).
  Proof.
    induction 1 as [|a L HS IH HF]; cbn; [constructor|]. destruct (f a); [|done]. constructor; [done|]. rewrite Forall_forall in *. intros c Hc. apply HF. by apply filter_elem in Hc as [? _].
  Qed.
  Lemma sorted_tails x L : x <> 0 -> (forall c, c ∈ L -> exists t, c = x :: t) -> StronglySorted clt L -> StronglySorted clt (map tail L).
  Proof.
    intros Hx HT. induction 1 as [|a L HS IH HF]; cbn [map]; [constructor|]. constructor; [apply IH; intros c Hc; apply HT; by right|].
    rewrite Forall_forall in *. intros t Ht. apply elem_of_list_fmap in Ht as (c & -> & Hc). specialize (HF c Hc). destruct (HT a) as [a' ->]; [left|]. destruct (HT c) as [c' ->]; [by right|]. cbn [tail].
    apply clt_heads in HF. destruct HF as [HF|[HF|[_ HF]]]; [lia|lia|done].
  Qed.
  Lemma lchild_inv v L value : 0 < v <= Z.of_nat nv -> linv L -> lcode L = Z.of_nat nv - v + 1 ->
    linv (lchild v value L) /\ lcode (lchild v value L) < Z.of_nat nv - v + 1.
  Proof.
    intros Hv HL Hl. pose proof HL as [HS HC]. rewrite Forall_forall in HC.
    assert (forall t, t ∈ lchild v value L -> canon nv t /\ Forall (fun y => v < Z.abs y) t) as HE.
    { intros t Ht. destruct value as [|[|n]].
      - apply lchild_0 in Ht as [Ht Hh]; [|lia]. pose proof (HC t Ht) as Hc. split; [done|]. destruct t as [|x t]; [constructor|]. apply canon_cons in Hc as (_ & _ & H3). constructor; [done|]. eapply Forall_impl; [exact H3|]. cbn. lia.
      - apply lchild_1 in Ht; [|lia]. apply HC in Ht. apply canon_cons in Ht as (_ & H2 & H3). split; [done|]. eapply Forall_impl; [exact H3|]. cbn. lia.
      - change (lchild v (S (S n)) L) with (lchild v 2 L) in Ht. apply lchild_2 in Ht; [|lia|done|done]. apply HC in Ht. apply canon_cons in Ht as (_ & H2 & H3). split; [done|]. eapply Forall_impl; [exact H3|]. cbn. lia. }
    assert (linv (lchild v value L)) as HI.
    { split; [|apply Forall_forall; intros t Ht; by apply HE]. destruct value as [|[|n]]; cbn [lchild].
      - by apply sorted_filter.
      - apply (sorted_tails (- v)); [lia| |by apply sorted_filter]. intros c Hc. apply filter_elem in Hc as [_ Hc]. apply andb_true_iff in Hc as [H1 H2]. apply negb_true_iff, not_true_iff_false in H1. rewrite neg_spec in H1 by lia. rewrite pos_spec in H2 by lia.
        destruct c as [|x c]; [done|]. exists c. f_equal. lia.
      - apply (sorted_tails v); [lia| |by apply sorted_filter]. intros c Hc. apply filter_elem in Hc as [Hc H2]. apply negb_true_iff, not_true_iff_false in H2. rewrite pos_spec in H2 by lia.
        destruct c as [|x c]; [by destruct H2|]. exists c. f_equal. destruct (lcode_bound L (x :: c) x HL Hc) as [_ Hb]; [left|]. lia. }
    split; [done|]. apply lcode_below; [done|lia|]. intros c y Hc Hy. destruct (HE c Hc) as [_ H]. rewrite Forall_forall in H. by apply H.
  Qed.
End abs.
