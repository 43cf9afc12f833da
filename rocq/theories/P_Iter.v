(** Iteration over a binary ZDD. *)
From Verif Require Import Base Sem M_Table Tree P_Count M_Iter.

(** the selections of a path: levels with the branch taken *)
Definition sel (p : list (nid * bool)) : list (nat * bool) := map (fun x => (row (fst x), snd x)) p.
(** all selections that lead from the root of a tree to the 1-terminal, branch 0 first *)
Fixpoint paths (T : tree) : list (list (nat * bool)) :=
  match T with
  | T0 => []
  | T1 => [[]]
  | TN l ts => match ts with
               | a :: b :: _ => map (cons (l, false)) (paths a) ++ map (cons (l, true)) (paths b)
               | _ => []
               end
  end.
Fixpoint leaves (T : tree) : nat :=
  match T with
  | TN l (a :: b :: _) => leaves a + leaves b
  | _ => 1
  end.
Lemma leaves_pos T : 0 < leaves T.
Proof. induction T as [| |l ts IH] using tree_ind'; [simpl; lia..|]. destruct ts as [|a [|b ts]]; simpl; [lia..|]. apply Forall_cons in IH as [H _]. lia. Qed.

Lemma sel_app p q : sel (p ++ q) = sel p ++ sel q.
Proof. unfold sel. apply map_app. Qed.

Section iter.
  Context (d : dd) (Hd : dd_wf d) (H2 : d_ar d = 2).
  Notation t := (tab d).

  (** p: path from the root; R: the selections still to come after those through the end of p; w: amount of work *)
  Inductive stack : list (nid * bool) -> list (list (nat * bool)) -> nat -> Prop :=
  | st_nil : stack [] [] 0
  | st_true p R w g : stack p R w -> is_Some (child t g 1) -> stack (p ++ [(g, true)]) R w
  | st_false p R w g b T : stack p R w -> child t g 1 = Some b -> rep t b T ->
      stack (p ++ [(g, false)]) (map (fun q => sel p ++ (row g, true) :: q) (paths T) ++ R) (leaves T + w).

  Definition cur_ok (cur : Z) (p : list (nid * bool)) : Prop :=
    (-1 <= cur < Z.of_nat (length p))%Z /\
    forall k x, (cur < Z.of_nat k)%Z -> p !! k = Some x -> snd x = true.

  Lemma up_skip p R w k : stack p R w -> k <= length p -> (forall j x, k <= j -> p !! j = Some x -> snd x = true) ->
    forall p', it_up t (length p) (p ++ p') = it_up t k (p ++ p').
  Proof.
    intros HS. induction HS as [|p R w g HS IH [b Hb]|p R w g b T HS IH Hb HT]; intros Hk Ht p'.
    - simpl in Hk. by replace k with 0 by lia.
    - rewrite app_length in *. simpl in Hk. destruct (decide (k = length p + 1)) as [->|Hne]; [done|].
      rewrite Nat.add_1_r. cbn [it_up length]. rewrite <- app_assoc, (lookup_app_r p) by lia. rewrite Nat.sub_diag.
      cbn [lookup list_lookup app mbind option_bind]. rewrite Hb. cbn [mbind option_bind negb andb].
      rewrite <- (IH ltac:(lia)); [done|]. intros j x Hj Hx. apply (Ht j x Hj). by apply lookup_app_l_Some.
    - rewrite app_length in *. simpl in Hk. destruct (decide (k = length p + 1)) as [->|Hne]; [done|].
      exfalso. specialize (Ht (length p) (g, false) ltac:(lia)). rewrite lookup_app_r, Nat.sub_diag in Ht by lia. by specialize (Ht eq_refl).
  Qed.

  Lemma up_ok p R w : stack p R w -> forall p',
    (R = [] /\ it_up t (length p) (p ++ p') = Some None) \/
    exists b q g T R0 w0, it_up t (length p) (p ++ p') = Some (Some (b, length q, q ++ [(g, true)])) /\
      stack q R0 w0 /\ child t g 1 = Some b /\ rep t b T /\
      R = map (fun x => sel q ++ (row g, true) :: x) (paths T) ++ R0 /\ leaves T + w0 <= w.
  Proof.
    induction 1 as [|p R w g HS IH [b Hb]|p R w g b T HS IH Hb HT]; intros p'.
    - by left.
    - rewrite app_length. cbn [length]. rewrite Nat.add_1_r. cbn [it_up]. rewrite <- app_assoc, (lookup_app_r p) by lia. rewrite Nat.sub_diag.
      cbn [lookup list_lookup app mbind option_bind]. rewrite Hb. cbn [mbind option_bind negb andb]. apply IH.
    - rewrite app_length. cbn [length]. rewrite Nat.add_1_r. cbn [it_up]. rewrite <- app_assoc, (lookup_app_r p) by lia. rewrite Nat.sub_diag.
      cbn [lookup list_lookup app mbind option_bind]. rewrite Hb. cbn [mbind option_bind negb andb].
      destruct (neqb b n0) eqn:Eb; cbn [negb].
      + apply neqb_true in Eb. injection Eb as Er Ec. assert (T = T0) as -> by (eapply rep_det; [exact HT|by constructor]).
        cbn [paths map app leaves]. destruct (IH ((g, false) :: p')) as [[-> E]|(b' & q & g' & T' & R0 & w0 & E & G1 & G2 & G3 & G4 & G5)].
        * left. split; [done|exact E].
        * right. exists b', q, g', T', R0, w0. split_and!; try done. lia.
      + right. exists b, p, g, T, R, w. split_and!; try done.
        rewrite insert_app_r_alt, Nat.sub_diag by lia. cbn [insert list_insert].
        rewrite take_app_ge by lia. replace (S (length p) - length p) with 1 by lia. done.
  Qed.

  Lemma rep_binary f T : rep t f T -> 0 < row f ->
    exists b0 b1 Ta Tb, child t f 0 = Some b0 /\ child t f 1 = Some b1 /\ rep t b0 Ta /\ rep t b1 Tb /\
      T = TN (row f) [Ta; Tb] /\ row b0 < row f /\ row b1 < row f.
  Proof.
    intros HR Hf. inversion HR as [| |? p ts Hr Hp HF Hl]; subst; try lia.
    assert (length p = 2) as Hlen.
    { unfold tget in Hp. apply bind_Some in Hp as (r & Hrow & Hcol). rewrite <- H2. eapply wf_arity; [apply Hd|done|done]. }
    destruct p as [|b0 [|b1 [|]]]; try done.
    apply Forall2_cons_inv_l in HF as (Ta & ts1 & HTa & HF & ->).
    apply Forall2_cons_inv_l in HF as (Tb & ts2 & HTb & HF & ->). apply Forall2_nil_inv_l in HF as ->.
    apply Forall_cons in Hl as [Hl0 Hl]. apply Forall_cons in Hl as [Hl1 _].
    exists b0, b1, Ta, Tb. unfold child. rewrite Hp. done.
  Qed.
  Lemma rep_term f T : rep t f T -> row f = 0 -> (T = T0 /\ neqb f n1 = false \/ T = T1 /\ neqb f n1 = true) /\ nonterminal f = false.
  Proof.
    intros HR Hf. inversion HR as [? E1 E2|? E1 E2|? p ts Hr Hp HF Hl]; subst; [| |lia]; unfold neqb, nonterminal; rewrite E1, E2; cbn; auto.
  Qed.

  Lemma down_ok k f T cur p R w : rep t f T -> row f < k -> stack p R w -> cur_ok cur p ->
    exists f' cur' p' R' w', it_down t k f cur p = Some (f', cur', p') /\ row f' = 0 /\
      stack p' R' w' /\ cur_ok cur' p' /\ w' + 1 <= w + leaves T /\
      ((neqb f' n1 = true /\ map (app (sel p)) (paths T) ++ R = sel p' :: R') \/
       (neqb f' n1 = false /\ map (app (sel p)) (paths T) ++ R = R')).
  Proof.
    revert f T cur p R w. induction k as [|k IH]; intros f T cur p R w HR Hk HS HC; [lia|].
    destruct (decide (row f = 0)) as [Hf|Hf].
    { destruct (rep_term f T HR Hf) as [Hc Hn]. cbn [it_down]. rewrite Hn. exists f, cur, p, R, w. split_and!; try done.
      { destruct Hc as [[-> _]|[-> _]]; simpl; lia. }
      destruct Hc as [[-> Hc]|[-> Hc]]; [right|left]; (split; [done|]); [done|]. cbn. by rewrite app_nil_r. }
    destruct (rep_binary f T HR ltac:(lia)) as (b0 & b1 & Ta & Tb & Hb0 & Hb1 & HTa & HTb & -> & L0 & L1).
    cbn [it_down]. unfold nonterminal. rewrite (proj2 (Nat.ltb_lt 0 (row f))) by lia. cbn [orb]. rewrite Hb0. cbn [mbind option_bind].
    destruct (neqb b0 n0) eqn:E0; cbn [negb].
    - rewrite Hb1. cbn [mbind option_bind].
      apply neqb_true in E0. injection E0 as Er Ec. assert (Ta = T0) as -> by (eapply rep_det; [exact HTa|by constructor]).
      destruct (IH b1 Tb cur (p ++ [(f, true)]) R w HTb ltac:(lia)) as (f' & cur' & p' & R' & w' & E & G1 & G2 & G3 & G4 & G5).
      { by constructor. }
      { destruct HC as [HC1 HC2]. split; [rewrite app_length; simpl; lia|]. intros j x Hj Hx.
        apply lookup_app_Some in Hx as [Hx|[Hle Hx]]; [by eapply HC2|]. apply list_lookup_singleton_Some in Hx as [_ <-]. done. }
      exists f', cur', p', R', w'. split_and!; try done; [cbn [leaves]; lia|].
      cbn [paths map app]. rewrite sel_app in G5. cbn [sel map fst snd] in G5.
      rewrite map_map. erewrite map_ext; [exact G5|]. intros x. cbn. by rewrite <- app_assoc.
    - destruct (IH b0 Ta (Z.of_nat (length p)) (p ++ [(f, false)]) (map (fun q => sel p ++ (row f, true) :: q) (paths Tb) ++ R) (leaves Tb + w) HTa ltac:(lia))
        as (f' & cur' & p' & R' & w' & E & G1 & G2 & G3 & G4 & G5).
      { by econstructor. }
      { split; [rewrite app_length; simpl; lia|]. intros j x Hj Hx. apply lookup_lt_Some in Hx. rewrite app_length in Hx. simpl in Hx. lia. }
      exists f', cur', p', R', w'. split_and!; try done; [cbn [leaves]; lia|].
      rewrite sel_app in G5. cbn [sel map fst snd] in G5.
      cbn [paths]. rewrite map_app, !map_map, <- app_assoc.
      assert (map (app (sel p ++ [(row f, false)])) (paths Ta) = map (fun x => sel p ++ (row f, false) :: x) (paths Ta)) as EE.
      { apply map_ext. intros x. by rewrite <- app_assoc. }
      unfold sel in *. rewrite EE in G5. exact G5.
  Qed.

  Lemma next_ok : forall W f T cur p R w fuel, rep t f T -> stack p R w -> cur_ok cur p ->
    w + leaves T <= W -> W <= fuel ->
    match map (app (sel p)) (paths T) ++ R with
    | [] => it_next t fuel f cur p = Some (It (-2) [] ∅)
    | x :: R' => exists cur' p' w', it_next t fuel f cur p = Some (It cur' p' (items_of p')) /\ sel p' = x /\
        stack p' R' w' /\ cur_ok cur' p' /\ w' + 1 <= w + leaves T
    end.
  Proof.
    induction W as [|W IH]; intros f T cur p R w fuel HR HS HC HW Hfu; [pose proof (leaves_pos T); lia|].
    destruct fuel as [|fuel]; [lia|]. cbn [it_next].
    destruct (down_ok (S (row f)) f T cur p R w HR ltac:(lia) HS HC) as (f' & cur' & p' & R' & w' & -> & G1 & G2 & G3 & G4 & G5).
    cbn [mbind option_bind]. destruct G5 as [[-> ->]|[-> ->]].
    - exists cur', p', w'. done.
    - assert (it_up t (Z.to_nat (cur' + 1)) p' = it_up t (length p') p') as ->.
      { destruct G3 as [G3 G3']. pose proof (up_skip p' R' w' (Z.to_nat (cur' + 1)) G2 ltac:(lia)) as H.
        specialize (H ltac:(intros j x Hj; apply G3'; lia) []). by rewrite app_nil_r in H. }
      destruct (up_ok p' R' w' G2 []) as [[-> E]|(b & q & g & T' & R0 & w0 & E & K1 & K2 & K3 & -> & K5)]; rewrite app_nil_r in E; rewrite E; cbn [mbind option_bind].
      + done.
      + assert (stack (q ++ [(g, true)]) R0 w0) as HS' by (constructor; [done|by eexists]).
        specialize (IH b T' (Z.of_nat (length q)) (q ++ [(g, true)]) R0 w0 fuel K3 HS').
        rewrite sel_app in IH. cbn [sel map fst snd] in IH.
        assert (map (app (sel q ++ [(row g, true)])) (paths T') = map (fun x => sel q ++ (row g, true) :: x) (paths T')) as EE.
        { apply map_ext. intros x. by rewrite <- app_assoc. }
        unfold sel in *. rewrite EE in IH.
        assert (cur_ok (Z.of_nat (length q)) (q ++ [(g, true)])) as HC'.
        { split; [rewrite app_length; simpl; lia|]. intros j x Hj Hx. apply lookup_lt_Some in Hx. rewrite app_length in Hx. simpl in Hx. lia. }
        specialize (IH HC' ltac:(lia) ltac:(lia)).
        destruct (map (fun x => map (fun x0 : nid * bool => (row x0.1, x0.2)) q ++ (row g, true) :: x) (paths T') ++ R0) as [|x R''] eqn:ER; [done|].
        destruct IH as (c2 & p2 & w2 & I1 & I2 & I3 & I4 & I5). exists c2, p2, w2. split_and!; try done. lia.
  Qed.

  Lemma it_eqb_end c p s : it_eqb (It c p s) it_end = true <-> c = (-2)%Z /\ p = [].
  Proof.
    unfold it_eqb, it_end. cbn [cursor path length]. split.
    - rewrite !andb_true_iff. intros [[H1 H3] _]. apply Z.eqb_eq in H1. apply Nat.eqb_eq in H3. by destruct p.
    - intros [-> ->]. done.
  Qed.

  Definition set_of (x : list (nat * bool)) : gset nat := foldl (fun s y => if snd y : bool then {[ fst y ]} ∪ s else s) ∅ x.
  Lemma items_sel p : items_of p = set_of (sel p).
  Proof.
    unfold items_of, set_of. generalize (∅ : gset nat). induction p as [|x p IH]; intros s; [done|]. cbn. apply IH.
  Qed.

  (** the successor, started in a found state *)
  Lemma incr_ok R : forall p w cur m fuel, stack p R w -> cur_ok cur p -> length R < m -> w < fuel ->
    it_collect t m fuel (It cur p (items_of p)) = Some (set_of (sel p) :: map set_of R).
  Proof.
    induction R as [|x R IH]; intros p w cur m fuel HS HC Hm Hf; (destruct m as [|m]; [lia|]); cbn [it_collect].
    all: destruct (it_eqb _ it_end) eqn:Ee; [apply it_eqb_end in Ee as [-> ->]; destruct HC as [HC _]; simpl in HC; lia|].
    all: unfold it_incr; cbn [cursor path itemset]; rewrite items_sel.
    - pose proof (next_ok (w + 1) n0 T0 cur p [] w fuel ltac:(by constructor) HS HC ltac:(simpl; lia) ltac:(lia)) as H.
      cbn [paths map app] in H. rewrite H. cbn [mbind option_bind]. destruct m; cbn; done.
    - pose proof (next_ok (w + 1) n0 T0 cur p (x :: R) w fuel ltac:(by constructor) HS HC ltac:(simpl; lia) ltac:(lia)) as H.
      cbn [paths map app] in H. destruct H as (c' & p' & w' & -> & <- & I1 & I2 & I3). cbn [mbind option_bind].
      rewrite (IH p' w' c' m fuel I1 I2); [|simpl in *; lia|simpl in I3; lia]. done.
  Qed.

  Lemma dd_sets_ok T m fuel : rep t (rt d) T -> length (paths T) <= m -> leaves T <= fuel ->
    dd_sets m fuel d = Some (map set_of (paths T)).
  Proof.
    intros HR Hm Hf. unfold dd_sets, it_begin.
    assert (cur_ok (-1) []) as HC by (split; [simpl; lia|done]).
    pose proof (next_ok (leaves T) (rt d) T (-1) [] [] 0 fuel HR st_nil HC ltac:(lia) Hf) as H.
    cbn [sel map] in H. rewrite app_nil_r in H. rewrite (map_ext (app []) id (fun x => eq_refl)), map_id in H.
    destruct (paths T) as [|x R] eqn:ET.
    - rewrite H. cbn [mbind option_bind]. by destruct m.
    - destruct H as (c' & p' & w' & -> & <- & I1 & I2 & I3). cbn [mbind option_bind].
      destruct m as [|m]; [simpl in Hm; lia|]. by rewrite (incr_ok R p' w' c' (S m) fuel I1 I2); [|simpl in *; lia|lia].
  Qed.
End iter.

(** ** The sets of a tree *)
Definition indicator (S : gset nat) : Sem.vec := fun l => if bool_decide (l ∈ S) then 1 else 0.

Lemma set_of_acc y (s : gset nat) : foldl (fun (s : gset nat) (y : nat * bool) => if snd y then {[ fst y ]} ∪ s else s) s y = set_of y ∪ s.
Proof.
  unfold set_of. revert s. induction y as [|[l b] y IH]; intros s; cbn; [set_solver|].
  rewrite (IH (if b then _ else _)), (IH (if b then _ else ∅)). destruct b; set_solver.
Qed.
Lemma set_of_app x y : set_of (x ++ y) = set_of y ∪ set_of x.
Proof. unfold set_of at 1. rewrite foldl_app. apply set_of_acc. Qed.
Lemma set_of_cons l b x : set_of ((l, b) :: x) = if b then {[l]} ∪ set_of x else set_of x.
Proof. change ((l, b) :: x) with ([(l, b)] ++ x). rewrite set_of_app. unfold set_of at 2. cbn. destruct b; set_solver. Qed.

Lemma paths_range T : tok 2 T -> forall x, x ∈ paths T -> forall l, l ∈ set_of x -> 0 < l <= tlev T.
Proof.
  induction T as [| |l ts IH] using tree_ind'; intros Hk x Hx i Hi.
  - by apply elem_of_nil in Hx.
  - apply elem_of_list_singleton in Hx as ->. set_solver.
  - inversion Hk as [| |? ? Hl Hlen HF HL]; subst. destruct ts as [|Ta [|Tb [|]]]; try done.
    apply Forall_cons in IH as [IHa IH]. apply Forall_cons in IH as [IHb _].
    apply Forall_cons in HF as [Ka HF]. apply Forall_cons in HF as [Kb _]. cbn [tlev].
    pose proof (tok_lev_child 2 l [Ta; Tb] 0 Hk). pose proof (tok_lev_child 2 l [Ta; Tb] 1 Hk). cbn [nth] in *.
    cbn [paths] in Hx. apply elem_of_app in Hx as [Hx|Hx]; apply elem_of_list_In, in_map_iff in Hx as (y & <- & Hy); apply elem_of_list_In in Hy; rewrite set_of_cons in Hi.
    + specialize (IHa ltac:(tauto) y Hy i Hi). lia.
    + apply elem_of_union in Hi as [Hi|Hi]; [apply elem_of_singleton in Hi; lia|]. specialize (IHb ltac:(tauto) y Hy i Hi). lia.
Qed.
Lemma in_paths_node l Ta Tb (S : gset nat) : S ∈ map set_of (paths (TN l [Ta; Tb])) <->
  S ∈ map set_of (paths Ta) \/ exists S', S' ∈ map set_of (paths Tb) /\ S = {[l]} ∪ S'.
Proof.
  cbn [paths]. rewrite map_app, !map_map, elem_of_app, !elem_of_list_In, !in_map_iff. split.
  - intros [(x & <- & Hx)|(x & <- & Hx)]; rewrite set_of_cons; [left; by exists x|right]. exists (set_of x). split; [|done].
    rewrite elem_of_list_In, in_map_iff. by exists x.
  - intros [(x & <- & Hx)|(S' & HS' & ->)]; [left|right].
    + exists x. by rewrite set_of_cons.
    + rewrite elem_of_list_In, in_map_iff in HS'. destruct HS' as (x & <- & Hx). exists x. by rewrite set_of_cons.
Qed.
Lemma sets_range T S l : tok 2 T -> S ∈ map set_of (paths T) -> l ∈ S -> 0 < l <= tlev T.
Proof.
  intros Hk HS Hl. rewrite elem_of_list_In, in_map_iff in HS. destruct HS as (x & <- & Hx). eapply paths_range; [done|by apply elem_of_list_In|done].
Qed.

Lemma paths_sem n : forall T (S : gset nat), tok 2 T -> tlev T <= n -> (forall l, l ∈ S -> 0 < l <= n) ->
  tzdd n T (indicator S) = true <-> S ∈ map set_of (paths T).
Proof.
  induction n as [|n IH]; intros T S Hk Hn HS.
  - destruct T as [| |l ts]; cbn.
    + split; [done|]. intros H. by apply elem_of_nil in H.
    + rewrite elem_of_list_singleton. split; [|done]. intros _. apply set_eq. intros x. split; intros Hx; [|set_solver]. specialize (HS x Hx). lia.
    + inversion Hk; subst. cbn in Hn. lia.
  - destruct (decide (tlev T = Datatypes.S n)) as [E|E].
    + destruct T as [| |l ts]; try done. cbn in E. subst l. inversion Hk as [| |? ? Hl Hlen HF HL]; subst. destruct ts as [|Ta [|Tb [|]]]; try done.
      apply Forall_cons in HF as [Ka HF]. apply Forall_cons in HF as [Kb _].
      apply Forall_cons in HL as [La HL]. apply Forall_cons in HL as [Lb _].
      rewrite tzdd_node, in_paths_node. unfold indicator at 1. case_bool_decide as Hin; cbn [nth].
      * rewrite (P_Count.tzdd_ext n Tb (indicator S) (indicator (S ∖ {[Datatypes.S n]}))).
        2:{ intros k Hk'. unfold indicator. apply (f_equal (fun b : bool => if b then 1 else 0)). apply bool_decide_ext. rewrite elem_of_difference, elem_of_singleton. split; [intros; split; [done|lia]|tauto]. }
        rewrite IH; [|done|lia|].
        2:{ intros l Hl'. apply elem_of_difference in Hl' as [Hl1 Hl2]. rewrite elem_of_singleton in Hl2. specialize (HS l Hl1). lia. }
        split.
        -- intros H. right. eexists. split; [exact H|]. apply set_eq. intros x. rewrite elem_of_union, elem_of_difference, elem_of_singleton.
           destruct (decide (x = Datatypes.S n)) as [->|]; tauto.
        -- intros [H|(S' & H & ->)].
           ++ specialize (sets_range Ta S _ Ka H Hin). lia.
           ++ replace (({[Datatypes.S n]} ∪ S') ∖ {[Datatypes.S n]}) with S'; [done|]. apply set_eq. intros x.
              rewrite elem_of_difference, elem_of_union, elem_of_singleton. split; [|tauto]. intros Hx. split; [tauto|].
              intros ->. specialize (sets_range Tb S' _ Kb H Hx). lia.
      * rewrite IH; [|done|lia|]. 2:{ intros l Hl'. specialize (HS l Hl'). destruct (decide (l = Datatypes.S n)) as [->|]; [done|lia]. }
        split; [by left|]. intros [H|(S' & H & ->)]; [done|]. exfalso. apply Hin. set_solver.
    + rewrite tzdd_skip by lia. unfold indicator at 1. case_bool_decide as Hin; cbn [Nat.eqb].
      * split; [done|]. intros H. specialize (sets_range T S _ Hk H Hin). lia.
      * apply IH; [done|lia|]. intros l Hl'. specialize (HS l Hl'). destruct (decide (l = Datatypes.S n)) as [->|]; [done|lia].
Qed.

Lemma paths_NoDup T : tok 2 T -> NoDup (map set_of (paths T)).
Proof.
  induction T as [| |l ts IH] using tree_ind'; intros Hk.
  - constructor.
  - apply NoDup_singleton.
  - inversion Hk as [| |? ? Hl Hlen HF HL]; subst. destruct ts as [|Ta [|Tb [|]]]; try done.
    apply Forall_cons in IH as [IHa IH]. apply Forall_cons in IH as [IHb _].
    apply Forall_cons in HF as [Ka HF]. apply Forall_cons in HF as [Kb _].
    apply Forall_cons in HL as [La HL]. apply Forall_cons in HL as [Lb _].
    cbn [paths]. rewrite map_app, !map_map.
    rewrite (map_ext (fun x => set_of ((l, false) :: x)) set_of) by (intros x; by rewrite set_of_cons).
    rewrite (map_ext (fun x => set_of ((l, true) :: x)) (fun x => {[l]} ∪ set_of x)) by (intros x; by rewrite set_of_cons).
    apply NoDup_app. split; [by apply IHa|]. split.
    + intros S HS HS'. rewrite elem_of_list_In, in_map_iff in HS'. destruct HS' as (x & <- & Hx).
      specialize (sets_range Ta _ l Ka HS ltac:(set_solver)). lia.
    + rewrite <- (map_map set_of (fun S => {[l]} ∪ S)). specialize (IHb Kb).
      assert (forall S, S ∈ map set_of (paths Tb) -> l ∉ S) as Hnot.
      { intros S HS Hin. specialize (sets_range Tb S l Kb HS Hin). lia. }
      revert IHb Hnot. generalize (map set_of (paths Tb)). clear. induction l0 as [|S L IH]; intros HN Hnot; [constructor|].
      apply NoDup_cons in HN as [HN1 HN2]. cbn [map]. apply NoDup_cons. split.
      * intros Hin. rewrite elem_of_list_In, in_map_iff in Hin. destruct Hin as (S' & E & HS'). apply elem_of_list_In in HS'.
        assert (S' = S) as ->; [|done]. apply set_eq. intros x.
        pose proof (Hnot S ltac:(left)) as N1. pose proof (Hnot S' ltac:(by right)) as N2.
        apply (f_equal (fun Z => x ∈ Z)) in E. destruct (decide (x = l)) as [->|Hne]; [tauto|].
        assert (x ∈ {[l]} ∪ S' <-> x ∈ {[l]} ∪ S) as HE by (by rewrite E). rewrite !elem_of_union, !elem_of_singleton in HE. tauto.
      * apply IH; [done|]. intros S' HS'. apply Hnot. by right.
Qed.
