From Coq Require Import Ascii String.
From Verif Require Import Base Sem M_Text S_Text M_Graphillion S_Graphillion P_Graphillion.
Local Open Scope Z_scope.

(** * The table *)
Definition node_of (g : gline) : gnode := GNode (Z.of_nat (g_index g)) (code (g_lo g)) (code (g_hi g)).
Record tinv (z : gzdd) (gs : list gline) : Prop := {
  ti_node : forall l, l ∈ gs -> gz_table z !! Z.to_nat (Z.of_nat (g_id l) + 2) = Some (node_of l);
  ti_size : Z.of_nat (List.length (gz_table z)) <= 2 ^ 63 + 8;
  ti_max : gz_max z = match gs with [] => -2147483648 | _ => Z.of_nat (last_index gs) end;
  ti_min : match gs with [] => gz_min z = 2147483647 | _ =>
             exists r, r ∈ gs /\ gz_root z = Z.of_nat (g_id r) + 2 /\ gz_min z = Z.of_nat (g_index r) /\
                       forall l, l ∈ gs -> (g_index r <= g_index l)%nat end
}.
Lemma code_small g : small g -> 0 <= code g < 2 ^ 62 + 2.
Proof. destruct g; cbn [small code]; lia. Qed.
Lemma last_index_snoc gs g : last_index (gs ++ [g]) = Nat.max (last_index gs) (g_index g).
Proof. unfold last_index. induction gs as [|x gs IH]; cbn [app map foldr]; [lia|]. rewrite IH. lia. Qed.
Lemma last_index_ge gs l : l ∈ gs -> (g_index l <= last_index gs)%nat.
Proof. unfold last_index. induction 1 as [x gs|x y gs _ IH]; cbn [map foldr] in *; lia. Qed.

Lemma add_line_ok z gs g : tinv z gs -> fits g -> (forall l, l ∈ gs -> g_id l <> g_id g) ->
  exists z', add_line z g = Some z' /\ tinv z' (gs ++ [g]).
Proof.
  intros [T1 T2 T3 T4] (F1 & F2 & F3 & F4) Hid. apply code_small in F3, F4. unfold add_line, addNode. cbn [gn_index gn_child0 gn_child1].
  set (size := Z.of_nat (List.length (gz_table z))) in *.
  set (id := Z.of_nat (g_id g) + 2). set (c0 := code (g_lo g)) in *. set (c1 := code (g_hi g)) in *.
  set (n1 := if size <=? id then id + 1 else size). set (n2 := if n1 <=? c0 then c0 + 1 else n1).
  set (n3 := if n2 <=? c1 then c1 + 1 else n2).
  set (t := if size <? n3 then resize (Z.to_nat (n3 * 2 mod 2 ^ 64)) (GNode 0 0 0) (gz_table z) else gz_table z).
  assert (0 <= id < 2 ^ 62 + 2) as Hidr by (unfold id; lia).
  assert (id < n3 /\ size <= n3 /\ (size < n3 -> n3 <= 2 ^ 62 + 2)) as (N1 & N2 & N3).
  { assert (id < n1 /\ size <= n1 /\ (size < n1 -> n1 <= 2 ^ 62 + 2)) as A1 by (unfold n1; destruct (Z.leb_spec size id); lia).
    assert (id < n2 /\ size <= n2 /\ (size < n2 -> n2 <= 2 ^ 62 + 2)) as A2 by (unfold n2; destruct (Z.leb_spec n1 c0); lia).
    unfold n3; destruct (Z.leb_spec n2 c1); lia. }
  assert (id < Z.of_nat (List.length t) /\ Z.of_nat (List.length t) <= 2 ^ 63 + 8 /\
          forall j x, gz_table z !! j = Some x -> t !! j = Some x) as (L1 & L2 & L3).
  { unfold t. destruct (Z.ltb_spec size n3) as [Hlt|Hge].
    - rewrite resize_length. rewrite Z.mod_small by lia. split_and!; [lia|lia|].
      intros j x Hj. rewrite lookup_resize; [done| |by apply lookup_lt_Some in Hj].
      apply lookup_lt_Some in Hj. unfold size in *. lia.
    - split_and!; [unfold size in *; lia|done|done]. }
  destruct (if Z.of_nat (g_index g) <? gz_min z then (Z.of_nat (g_index g), id) else (gz_min z, gz_root z)) as [mn root] eqn:Emn.
  destruct (Z.ltb_spec id (Z.of_nat (List.length t))); [|lia].
  eexists. split; [done|]. constructor; cbn [gz_table gz_root gz_min gz_max].
  - intros l Hl. apply elem_of_app in Hl as [Hl|Hl%elem_of_list_singleton].
    + rewrite list_lookup_insert_ne; [by apply L3, T1|]. specialize (Hid l Hl). unfold id. lia.
    + subst l. fold id. rewrite list_lookup_insert by lia. done.
  - rewrite insert_length. lia.
  - rewrite T3. destruct gs as [|x gs].
    + cbn [app]. change (last_index [g]) with (Nat.max (g_index g) 0). destruct (Z.ltb_spec (-2147483648) (Z.of_nat (g_index g))); lia.
    + rewrite last_index_snoc. cbn [app]. destruct (Z.ltb_spec (Z.of_nat (last_index (x :: gs))) (Z.of_nat (g_index g))); lia.
  - destruct gs as [|x gs].
    + rewrite T4 in Emn. cbn [app]. destruct (Z.ltb_spec (Z.of_nat (g_index g)) 2147483647); [|lia]. injection Emn as <- <-.
      exists g. split_and!; [set_solver|done|done|]. intros l ->%elem_of_list_singleton. lia.
    + destruct T4 as (r & R1 & R2 & R3 & R4). set (gs' := x :: gs) in *.
      replace (match gs' ++ [g] with [] => mn = 2147483647 | _ => exists r : gline, r ∈ gs' ++ [g] /\ root = Z.of_nat (g_id r) + 2 /\ mn = Z.of_nat (g_index r) /\ (forall l, l ∈ gs' ++ [g] -> (g_index r <= g_index l)%nat) end)
        with (exists r : gline, r ∈ gs' ++ [g] /\ root = Z.of_nat (g_id r) + 2 /\ mn = Z.of_nat (g_index r) /\ (forall l, l ∈ gs' ++ [g] -> (g_index r <= g_index l)%nat)) by done.
      rewrite R3 in Emn. destruct (Z.ltb_spec (Z.of_nat (g_index g)) (Z.of_nat (g_index r))); injection Emn as <- <-.
      * exists g. split_and!; [set_solver|done|done|]. intros l [Hl|Hl%elem_of_list_singleton]%elem_of_app; [|by subst].
        specialize (R4 l Hl). lia.
      * exists r. split_and!; [set_solver|done|done|]. intros l [Hl|Hl%elem_of_list_singleton]%elem_of_app; [by apply R4|]. subst l. lia.
Qed.
Lemma fold_ok todo : forall z gs, tinv z gs -> Forall fits todo -> NoDup (map g_id (gs ++ todo)) ->
  exists z', ofold add_line todo z = Some z' /\ tinv z' (gs ++ todo).
Proof.
  induction todo as [|g todo IH]; intros z gs Hz Hf Hd; [exists z; rewrite app_nil_r; done|].
  inversion Hf; subst. destruct (add_line_ok z gs g Hz) as (z1 & E1 & Hz1); [done| |].
  { intros l Hl E. rewrite map_app, NoDup_app in Hd. destruct Hd as (_ & D & _). apply (D (g_id l)); [by apply elem_of_list_fmap_1|].
    rewrite E. left. }
  cbn [ofold]. rewrite E1. cbn [mbind option_bind]. replace (gs ++ g :: todo) with ((gs ++ [g]) ++ todo) in * by by rewrite <- app_assoc.
  by apply IH.
Qed.

(** * The family *)
Section fam.
Variables (nodes : list gline) (r : gline) (z : gzdd).
Hypothesis Hok : gfile_ok nodes r.
Hypothesis Hz : tinv z nodes.
Notation hi := (last_index nodes).

Lemma same_id l l' : l ∈ nodes -> l' ∈ nodes -> g_id l = g_id l' -> l = l'.
Proof using Hok.
  intros [j Hj]%elem_of_list_lookup [j' Hj']%elem_of_list_lookup E. pose proof (gf_distinct _ _ Hok _ _ _ _ Hj Hj' E). by simplify_eq.
Qed.
Lemma max_hi : gz_max z = Z.of_nat hi.
Proof using All.
  rewrite (ti_max _ _ Hz). destruct (gf_root _ _ Hok) as [Hr _]. by destruct nodes; [apply elem_of_nil in Hr|].
Qed.
Lemma root_ok : gz_root z = code (GId (g_id r)).
Proof using All.
  destruct (gf_root _ _ Hok) as [Hr Hmin]. pose proof (ti_min _ _ Hz) as M.
  assert (exists r', r' ∈ nodes /\ gz_root z = Z.of_nat (g_id r') + 2 /\ gz_min z = Z.of_nat (g_index r') /\
             forall l, l ∈ nodes -> (g_index r' <= g_index l)%nat) as (r' & R1 & R2 & R3 & R4).
  { by destruct nodes; [apply elem_of_nil in Hr|]. }
  destruct (Hmin r' R1) as [->|Hlt]; [done|]. specialize (R4 r Hr). lia.
Qed.

(** a branch that can be followed, and its level *)
Definition def (g : gref) : Prop := match g with GId k => exists l, l ∈ nodes /\ g_id l = k | _ => True end.
Definition lev (g : gref) (L : Z) : Prop :=
  match g with GB => L = 0 | GT => L = -1 | GId k => exists l, l ∈ nodes /\ g_id l = k /\ L = Z.of_nat hi - Z.of_nat (g_index l) + 1 end.
Lemma def_lev g : def g -> exists L, lev g L.
Proof. destruct g as [| |k]; cbn [def lev]; [by exists 0|by exists (-1)|]. intros (l & H1 & H2). eexists. exists l. done. Qed.
Lemma level_ok g L : lev g L -> gz_level z (code g) = Some L.
Proof using All.
  unfold gz_level. destruct g as [| |k]; cbn [lev code]; [by intros ->|by intros ->|]. intros (l & H1 & H2 & ->).
  destruct (Z.eqb_spec (Z.of_nat k + 2) 0); [lia|]. destruct (Z.eqb_spec (Z.of_nat k + 2) 1); [lia|].
  rewrite <- H2, (ti_node _ _ Hz l H1), max_hi. done.
Qed.
Lemma branch_def i g : branch_ok nodes i g -> def g.
Proof. destruct g; cbn [branch_ok def]; [done|done|]. intros (l & ? & ? & _). by exists l. Qed.
Definition br (l : gline) (b : nat) : gref := match b with O => g_lo l | _ => g_hi l end.
Lemma br_ok l b : l ∈ nodes -> branch_ok nodes (g_index l) (br l b).
Proof using Hok. intros H. destruct (gf_branch _ _ Hok l H). by destruct b. Qed.
Lemma child_ok l b L : l ∈ nodes -> lev (br l b) L -> gz_getChild z (code (GId (g_id l))) b = Some (L, code (br l b)).
Proof using All.
  intros Hl HL. unfold gz_getChild. cbn [code]. rewrite (ti_node _ _ Hz l Hl). cbn [mbind option_bind].
  replace (match b with O => gn_child0 (node_of l) | S _ => gn_child1 (node_of l) end) with (code (br l b)) by by destruct b.
  rewrite (level_ok _ _ HL). done.
Qed.
Lemma br_lev l b L : l ∈ nodes -> lev (br l b) L -> L < Z.of_nat hi - Z.of_nat (g_index l) + 1.
Proof using Hok.
  intros Hl. pose proof (br_ok l b Hl) as Hb. pose proof (last_index_ge _ _ Hl).
  destruct (br l b) as [| |k]; cbn [lev branch_ok] in *; [lia..|]. intros (l' & H1 & H2 & ->). destruct Hb as (l'' & B1 & B2 & B3).
  assert (l' = l'') as <- by (apply same_id; congruence). lia.
Qed.

Lemma member_above g p L : member nodes g p -> lev g L -> Forall (fun x => Z.of_nat hi - Z.of_nat x + 1 <= L) p.
Proof using Hok.
  intros H. revert L. induction H as [|l p Hl _ IH|l p Hl _ IH]; intros L HL; [done| |].
  - destruct HL as (l' & H1 & H2 & ->). assert (l' = l) as -> by by apply same_id.
    destruct (def_lev (g_lo l)) as [L' HL']; [by eapply branch_def, (br_ok l 0)|].
    eapply Forall_impl; [by apply IH|]. intros x Hx. pose proof (br_lev l 0 L' Hl HL'). cbn beta in Hx. lia.
  - destruct HL as (l' & H1 & H2 & ->). assert (l' = l) as -> by by apply same_id.
    destruct (def_lev (g_hi l)) as [L' HL']; [by eapply branch_def, (br_ok l 1)|].
    constructor; [lia|]. eapply Forall_impl; [by apply IH|]. intros x Hx. pose proof (br_lev l 1 L' Hl HL'). cbn beta in Hx. lia.
Qed.
Lemma member_node l p : l ∈ nodes ->
  member nodes (GId (g_id l)) p <-> member nodes (g_lo l) p \/ exists q, p = g_index l :: q /\ member nodes (g_hi l) q.
Proof using Hok.
  intros Hl. split.
  - intros H. remember (GId (g_id l)) as g eqn:Eg. destruct H as [|l' p Hl' H|l' p Hl' H]; [done| |].
    + injection Eg as E. assert (l' = l) as -> by by apply same_id. by left.
    + injection Eg as E. assert (l' = l) as -> by by apply same_id. right. by exists p.
  - intros [H|(q & -> & H)]; [by apply m_lo|by apply m_hi].
Qed.

(** the set of a vector, below level n *)
Definition pick (v : vec) (n : nat) : list nat := filter (fun i => v (hi - i + 1)%nat <> 0%nat) (seq (hi + 1 - n) n).
Lemma pick_S v n : (S n <= hi + 1)%nat ->
  pick v (S n) = if (v (S n) =? 0)%nat then pick v n else (hi - n)%nat :: pick v n.
Proof.
  intros Hn. unfold pick. cbn [seq]. rewrite filter_cons. replace (S (hi + 1 - S n)) with (hi + 1 - n)%nat by lia.
  replace (hi + 1 - S n)%nat with (hi - n)%nat by lia. replace (hi - (hi - n) + 1)%nat with (S n) by lia.
  destruct (Nat.eqb_spec (v (S n)) 0) as [E|E]; case_decide; try done.
Qed.
Lemma pick_low v n : Forall (fun i => (hi + 1 - n <= i)%nat) (pick v n).
Proof. apply Forall_forall. unfold pick. intros i [_ Hi]%elem_of_list_filter. apply elem_of_seq in Hi. lia. Qed.

Lemma eval_ok v n : (n <= hi + 1)%nat -> forall g L, lev g L -> L <= Z.of_nat n ->
  zdd_eval (gz_spec z) n L (code g) v = true <-> member nodes g (pick v n).
Proof using All.
  induction n as [|n IH]; intros Hn g L HL Hle.
  - cbn [zdd_eval]. replace (pick v 0) with (@nil nat) by done. destruct g as [| |k]; cbn [lev] in HL.
    + subst L. split; [done|]. intros H. inversion H.
    + subst L. split; [intros; constructor|done].
    + destruct HL as (l & H1 & H2 & ->). pose proof (last_index_ge _ _ H1). lia.
  - cbn [zdd_eval]. rewrite pick_S by done. destruct (Z.eqb_spec L (Z.of_nat (S n))) as [->|Hne].
    + destruct g as [| |k]; cbn [lev] in HL; [lia|lia|]. destruct HL as (l & H1 & <- & HL).
      assert (g_index l = (hi - n)%nat) as Hi by lia. rewrite member_node by done.
      cbn [get_child gz_spec]. 
      destruct (def_lev (br l (v (S n)))) as [L' HL']; [by eapply branch_def, br_ok|].
      rewrite (child_ok l _ L' H1 HL'). cbn [default from_option fst snd id].
      rewrite (IH ltac:(lia) _ _ HL') by (pose proof (br_lev l _ L' H1 HL'); lia).
      destruct (v (S n)) as [|b] eqn:Ev; cbn [br Nat.eqb].
      * split; [by left|]. intros [H|(q & Hq & H)]; [done|]. pose proof (pick_low v n) as Hp. rewrite Hq, Hi in Hp.
        inversion Hp; subst. lia.
      * rewrite Hi. split; [intros H; right; eauto|]. intros [H|(q & Hq & H)]; [|by injection Hq as ->].
        destruct (def_lev (g_lo l)) as [L0 HL0]; [by eapply branch_def, (br_ok l 0)|].
        pose proof (member_above _ _ _ H HL0) as Ha. pose proof (br_lev l 0 L0 H1 HL0). inversion Ha; subst. lia.
    + destruct (Nat.eqb_spec (v (S n)) 0) as [E|E].
      * apply IH; [lia|done|lia].
      * split; [done|]. intros H. pose proof (member_above _ _ _ H HL) as Ha. inversion Ha; subst. lia.
Qed.
Lemma root_lev : lev (GId (g_id r)) (Z.of_nat hi - Z.of_nat (g_index r) + 1).
Proof using Hok. destruct (gf_root _ _ Hok) as [Hr _]. by exists r. Qed.
Lemma get_root_ok : get_root (gz_spec z) = (Z.of_nat hi - Z.of_nat (g_index r) + 1, code (GId (g_id r))).
Proof using All.
  cbn [get_root gz_spec]. unfold gz_getRoot. rewrite root_ok. rewrite (level_ok _ _ root_lev). done.
Qed.
Lemma reach_ok L s : reach (gz_spec z) L s -> exists l, l ∈ nodes /\ s = code (GId (g_id l)) /\ L = Z.of_nat hi - Z.of_nat (g_index l) + 1.
Proof using All.
  induction 1 as [Hp|L s b Hr (l & H1 & -> & ->) Hb Hp].
  - rewrite get_root_ok. cbn [fst snd]. exists r. destruct (gf_root _ _ Hok). done.
  - cbn [get_child gz_spec] in *. destruct (def_lev (br l b)) as [L' HL']; [by eapply branch_def, br_ok|].
    rewrite (child_ok l _ L' H1 HL') in *. cbn [default from_option fst snd id] in *.
    destruct (br l b) as [| |k]; cbn [lev] in HL'; [lia|lia|]. destruct HL' as (l' & A1 & <- & ->). by exists l'.
Qed.
Lemma gz_spec_ok : spec_ok (gz_spec z) /\ one_code (gz_spec z).
Proof using All.
  split.
  - constructor; [cbn; lia| |].
    + intros L s b Hr Hb. apply reach_ok in Hr as (l & H1 & -> & ->). cbn [get_child gz_spec].
      destruct (def_lev (br l b)) as [L' HL']; [by eapply branch_def, br_ok|].
      rewrite (child_ok l _ L' H1 HL'). cbn [default from_option fst snd id]. by eapply br_lev.
    + intros L s s' _ _ E. cbn [equal_to gz_spec] in E. apply Z.eqb_eq in E as ->. by intros bs _.
  - split.
    + rewrite get_root_ok. cbn [fst]. destruct (gf_root _ _ Hok) as [Hr _]. pose proof (last_index_ge _ _ Hr). lia.
    + intros L s b Hr Hb. apply reach_ok in Hr as (l & H1 & -> & ->). cbn [get_child gz_spec].
      destruct (def_lev (br l b)) as [L' HL']; [by eapply branch_def, br_ok|].
      rewrite (child_ok l _ L' H1 HL'). cbn [default from_option fst snd id].
      destruct (br l b) as [| |k]; cbn [lev] in HL'; [lia..|]. destruct HL' as (l' & A1 & _ & ->). pose proof (last_index_ge _ _ A1). lia.
Qed.
End fam.

(** * Reading *)
Lemma file_fits nodes r : gfile_ok nodes r -> Forall fits nodes /\ NoDup (map g_id nodes).
Proof.
  intros Hok. split.
  - apply Forall_forall. intros l Hl. destruct (gf_range _ _ Hok l Hl). destruct (gf_branch _ _ Hok l Hl) as [B0 B1].
    assert (forall g, branch_ok nodes (g_index l) g -> small g) as Hs.
    { intros [| |k]; cbn [branch_ok small]; [done..|]. intros (l' & A1 & <- & _). by apply (gf_range _ _ Hok l'). }
    split_and!; [done|lia|by apply Hs|by apply Hs].
  - apply NoDup_alt. intros i j k Hi Hj. rewrite list_lookup_fmap in Hi, Hj.
    destruct (nodes !! i) as [l|] eqn:E1; [|done]. destruct (nodes !! j) as [l'|] eqn:E2; [|done]. injection Hi as <-. injection Hj as Hj.
    by eapply (gf_distinct _ _ Hok).
Qed.
Lemma gz_read_ok txt nodes r : graphillion txt = Some nodes -> gfile_ok nodes r ->
  exists z, gz_read txt = Some z /\ tinv z nodes.
Proof.
  unfold graphillion. intros Ht Hok. destruct (lines_of txt) as [ls|] eqn:El; [|done]. cbn [mbind option_bind] in Ht.
  apply lines_inv in El as [-> Hnl]. destruct (file_fits _ _ Hok) as [Hf Hd].
  unfold gz_read. rewrite (read_loop_ok ls nodes) by (done || lia). apply (fold_ok nodes gz_new []); [|done|done].
  constructor; cbn; [set_solver|lia|done|done].
Qed.
