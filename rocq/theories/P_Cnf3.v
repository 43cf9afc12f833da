(** The specification CnfToZtdd: the family of vectors. *)
From stdpp Require Import sorting.
From Verif Require Import Base Sem M_Cnf S_Cnf P_Cnf1 P_Cnf2.
Local Open Scope Z_scope.

Section mach.
  Context (nv : nat) (cnf : list clause).
  Definition crest (s : cstate) : list clause := map (drop (cs_pos s)) (between cnf (cs_beg s) (cs_end s)).
  Definition cinv (s : cstate) : Prop :=
    (cs_beg s <= cs_end s <= length cnf)%nat /\ linv nv (crest s) /\ Forall (fun c => (cs_pos s <= length c)%nat) (between cnf (cs_beg s) (cs_end s)).

  Lemma parts pos b e x (A B : list clause) : (b <= e <= length cnf)%nat -> map (drop pos) (between cnf b e) = A ++ B ->
    Forall (fun c => searcher 0 c x = true) A -> Forall (fun c => searcher 0 c x = false) B ->
    exists m, search cnf pos b e x = Some m /\ (b <= m <= e)%nat /\ map (drop pos) (between cnf b m) = A /\ map (drop pos) (between cnf m e) = B /\
      between cnf b e = between cnf b m ++ between cnf m e.
  Proof.
    intros Hb E HA HB. apply fmap_app_inv in E as (A' & B' & -> & -> & E). destruct (between_app cnf b e A' B' Hb E) as (H1 & H2 & H3).
    exists (b + length A')%nat. split_and!; [|lia|lia|by rewrite H2|by rewrite H3|by rewrite H2, H3].
    apply (search_ok cnf pos b e x A' B'); [done|done| |].
    - rewrite Forall_fmap in HA. eapply Forall_impl; [exact HA|]. intros c. cbn. by rewrite <- searcher_drop.
    - rewrite Forall_fmap in HB. eapply Forall_impl; [exact HB|]. intros c. cbn. by rewrite <- searcher_drop.
  Qed.
  Lemma filter_all (f : clause -> bool) L : Forall (fun c => f c = true) L -> List.filter f L = L.
  Proof. induction 1 as [|c L H _ IH]; cbn; [done|]. by rewrite H, IH. Qed.
  Lemma filter_no (f : clause -> bool) L : Forall (fun c => f c = false) L -> List.filter f L = [].
  Proof. induction 1 as [|c L H _ IH]; cbn; [done|]. by rewrite H, IH. Qed.
  Lemma map_drop_S pos (L : list clause) : map (drop (S pos)) L = map tail (map (drop pos) L).
  Proof.
    rewrite map_map. apply map_ext. intros c. revert pos. induction c as [|x c IH]; intros [|pos]; cbn; [done|done|done|]. apply IH.
  Qed.
  Lemma longer pos (L : list clause) : Forall (fun c => (pos <= length c)%nat) L -> Forall (fun c => c <> []) (map (drop pos) L) -> Forall (fun c => (S pos <= length c)%nat) L.
  Proof.
    rewrite Forall_fmap. intros H1 H2. rewrite Forall_forall in *. intros c Hc. specialize (H1 c Hc). specialize (H2 c Hc). cbn in H2. destruct (decide (S pos <= length c)%nat); [done|]. destruct H2. apply drop_ge. lia.
  Qed.

  (** the branch of getChild that chooses the clauses *)
  Definition choose (s : cstate) (v : Z) (value : nat) : option cstate :=
    match value with
    | 0%nat => e ← search cnf (cs_pos s) (cs_beg s) (cs_end s) (- v); Some (CState (cs_beg s) e (cs_pos s))
    | 1%nat => b ← search cnf (cs_pos s) (cs_beg s) (cs_end s) (- v);
               e ← search cnf (cs_pos s) b (cs_end s) v;
               Some (CState b e (S (cs_pos s)))
    | _ => b ← search cnf (cs_pos s) (cs_beg s) (cs_end s) v; Some (CState b (cs_end s) (S (cs_pos s)))
    end.
  Lemma choose_ok s v value : cinv s -> 0 < v <= Z.of_nat nv -> lcode nv (crest s) = Z.of_nat nv - v + 1 ->
    exists s', choose s v value = Some s' /\ crest s' = lchild v value (crest s) /\ cinv s'.
  Proof.
    intros (Hb & HL & Hp) Hv Hl. destruct (lchild_inv nv v (crest s) value Hv HL Hl) as [HI _]. pose proof HL as [HS HC].
    destruct (sorted_partition (fun c => searcher 0 c (- v)) (crest s)) as (A & B & E & HA & HB); [intros a b; apply neg_down; lia|done|].
    destruct (parts _ _ _ _ A B Hb E HA HB) as (m & Em & Hm & EA & EB & EAB). unfold choose. destruct value as [|[|n]].
    - rewrite Em. cbn [mbind option_bind]. exists (CState (cs_beg s) m (cs_pos s)). split; [done|].
      assert (crest (CState (cs_beg s) m (cs_pos s)) = lchild v 0 (crest s)) as Er.
      { cbn [lchild]. rewrite E, List.filter_app, filter_all, filter_no by done. rewrite app_nil_r. done. }
      split; [done|]. split; [cbn; lia|]. rewrite Er. split; [done|]. cbn [cs_beg cs_end cs_pos]. rewrite EAB, Forall_app in Hp. apply Hp.
    - rewrite Em. cbn [mbind option_bind].
      assert (StronglySorted clt B) as HSB. { rewrite E in HS. clear -HS. induction A as [|a A IH]; [done|]. apply IH. by inversion HS. }
      destruct (sorted_partition (fun c => searcher 0 c v) B) as (C & D & EE & HC' & HD); [intros a b; apply pos_down; lia|done|].
      rewrite <- EB in EE. destruct (parts (cs_pos s) m (cs_end s) v C D ltac:(lia) EE HC' HD) as (k & Ek & Hk & EC & ED & ECD). rewrite Ek. cbn [mbind option_bind]. exists (CState m k (S (cs_pos s))). split; [done|].
      rewrite EB in EE.
      assert (crest (CState m k (S (cs_pos s))) = lchild v 1 (crest s)) as Er.
      { cbn [lchild]. rewrite E, List.filter_app, EE, List.filter_app. rewrite (filter_no _ A), (filter_all _ C), (filter_no _ D).
        - cbn [app]. rewrite app_nil_r. unfold crest. cbn [cs_beg cs_end cs_pos]. by rewrite map_drop_S, EC.
        - eapply Forall_impl; [exact HD|]. cbn. intros c ->. by rewrite andb_false_r.
        - rewrite EE, Forall_app in HB. destruct HB as [HB _]. rewrite Forall_forall in *. intros c Hc. rewrite (HB c Hc), (HC' c Hc). done.
        - eapply Forall_impl; [exact HA|]. cbn. intros c ->. done. }
      split; [done|]. split; [cbn; lia|]. rewrite Er. split; [done|]. cbn [cs_beg cs_end cs_pos]. rewrite EAB, Forall_app in Hp. destruct Hp as [_ Hp]. rewrite ECD, Forall_app in Hp. apply longer; [apply Hp|].
      rewrite EC. rewrite EE, Forall_app in HB. destruct HB as [HB _]. eapply Forall_impl; [exact HB|]. intros c Hc ->. done.
    - destruct (sorted_partition (fun c => searcher 0 c v) (crest s)) as (C & D & EE & HC' & HD); [intros a b; apply pos_down; lia|done|].
      destruct (parts _ _ _ _ C D Hb EE HC' HD) as (k & Ek & Hk & EC & ED & ECD). rewrite Ek. cbn [mbind option_bind]. exists (CState k (cs_end s) (S (cs_pos s))). split; [done|].
      assert (crest (CState k (cs_end s) (S (cs_pos s))) = lchild v (S (S n)) (crest s)) as Er.
      { cbn [lchild]. rewrite EE, List.filter_app. rewrite (filter_no _ C), (filter_all _ D).
        - cbn [app]. unfold crest. cbn [cs_beg cs_end cs_pos]. by rewrite map_drop_S, ED.
        - eapply Forall_impl; [exact HD|]. cbn. intros c ->. done.
        - eapply Forall_impl; [exact HC'|]. cbn. intros c ->. done. }
      split; [done|]. split; [cbn; lia|]. rewrite Er. split; [done|]. cbn [cs_beg cs_end cs_pos]. rewrite ECD, Forall_app in Hp. apply longer; [apply Hp|].
      rewrite ED. eapply Forall_impl; [exact HD|]. intros c Hc ->. done.
  Qed.
  Lemma var_level l : 1 <= l <= Z.of_nat nv -> var_at_level nv l = Some (Z.of_nat nv - l + 1).
  Proof. intros H. unfold var_at_level. destruct (Z.leb_spec 1 l), (Z.leb_spec l (Z.of_nat nv)); try lia. done. Qed.
  Lemma level_var x : 1 <= x <= Z.of_nat nv -> level_of_var nv x = Some (Z.of_nat nv - x + 1).
  Proof. intros H. unfold level_of_var. destruct (Z.leb_spec 1 x), (Z.leb_spec x (Z.of_nat nv)); try lia. done. Qed.
  Lemma child_ok s l value : cinv s -> 0 < l -> lcode nv (crest s) = l ->
    exists s', cn_child nv cnf s l value = Some (lcode nv (crest s'), s') /\ crest s' = lchild (Z.of_nat nv - l + 1) value (crest s) /\ cinv s' /\ lcode nv (crest s') < l.
  Proof.
    intros HI Hl Hc. pose proof HI as (Hb & HL & Hp). destruct (lcode_range nv _ HL) as [Hr _]. set (v := Z.of_nat nv - l + 1).
    destruct (choose_ok s v value HI) as (s' & Es & Er & HI'); [unfold v; lia|unfold v; lia|]. destruct (lchild_inv nv v (crest s) value) as [_ Hlt]; [unfold v; lia|done|unfold v; lia|]. rewrite <- Er in Hlt.
    exists s'. split; [|split; [done|]; split; [done|unfold v in Hlt; lia]]. unfold cn_child.
    destruct (Nat.leb_spec (cs_end s) (cs_beg s)) as [He|_].
    { exfalso. unfold crest, between in Hc. replace (cs_end s - cs_beg s)%nat with 0%nat in Hc by lia. change (0 = l) in Hc. lia. }
    rewrite var_level by lia. cbn [mbind option_bind]. fold v. fold (choose s v value). rewrite Es. cbn [mbind option_bind]. pose proof HI' as (Hb' & HL' & _).
    destruct (Nat.eqb_spec (cs_beg s') (cs_end s')) as [Ee|Hne].
    { unfold crest, between. rewrite Ee, Nat.sub_diag. done. }
    destruct (cnf !! cs_beg s') as [first|] eqn:Ef; [|apply lookup_ge_None in Ef; lia]. cbn [mbind option_bind].
    assert (Hlen : length (crest s') = (cs_end s' - cs_beg s')%nat) by (unfold crest; rewrite map_length, between_length; lia).
    assert (H0 : crest s' !! 0%nat = Some (drop (cs_pos s') first)).
    { unfold crest. change (map (drop (cs_pos s'))) with (fmap (M := list) (drop (A := Z) (cs_pos s'))). rewrite list_lookup_fmap, between_lookup by lia. rewrite Nat.add_0_r, Ef. done. }
    destruct (cnf !! (cs_end s' - 1)%nat) as [c|] eqn:Ec; [|apply lookup_ge_None in Ec; lia].
    assert (Hc' : crest s' !! (length (crest s') - 1)%nat = Some (drop (cs_pos s') c)).
    { rewrite Hlen. unfold crest. change (map (drop (cs_pos s'))) with (fmap (M := list) (drop (A := Z) (cs_pos s'))). rewrite list_lookup_fmap, between_lookup by lia. replace (cs_beg s' + (cs_end s' - cs_beg s' - 1))%nat with (cs_end s' - 1)%nat by lia. by rewrite Ec. }
    destruct (Nat.eqb_spec (cs_beg s') (cs_end s' - 1)) as [Eb|Hnb]; [destruct (Nat.leb_spec (length first) (cs_pos s')) as [Hz|Hz]|]; cbn [andb].
    - rewrite (drop_ge first) in H0 by done. assert (length (crest s') = 1%nat) as H1 by lia. destruct (crest s') as [|a [|]] eqn:Ecr; try done. cbn in H0. injection H0 as ->. done.
    - assert (c = first) as -> by (rewrite Eb in Ef; congruence). assert (length (crest s') = 1%nat) as H1 by lia. cbn [mbind option_bind].
      destruct (first !! cs_pos s') as [x|] eqn:Ex; [|apply lookup_ge_None in Ex; lia]. cbn [mbind option_bind].
      destruct (crest s') as [|a [|]] eqn:Ecr; try done. cbn in H0. injection H0 as ->. assert (drop (cs_pos s') first = x :: drop (S (cs_pos s')) first) as Ed by (by apply drop_S).
      rewrite Ed in *. unfold lcode in *. cbn [last] in *. destruct HL' as [_ HC]. rewrite Forall_singleton in HC. apply canon_cons in HC as ((X1 & X2) & _).
      rewrite level_var by lia. cbn [mbind option_bind]. destruct (Z.leb_spec l (Z.of_nat nv - Z.abs x + 1)); [unfold v in Hlt; lia|done].
    - cbn [mbind option_bind]. destruct (last_cases nv (crest s') HL') as [E0|[E0|(L' & x & d & E & El)]]; [rewrite E0 in *; cbn in Hlen; lia|rewrite E0 in *; cbn in Hlen; lia|].
      rewrite E, app_length, lookup_app_r in Hc' by (cbn; lia). replace (length L' + length [x :: d] - 1 - length L')%nat with 0%nat in Hc' by (cbn; lia). cbn in Hc'. injection Hc' as Hd.
      destruct (c !! cs_pos s') as [y|] eqn:Ey; [|apply lookup_ge_None in Ey; rewrite drop_ge in Hd by done; done]. pose proof (drop_S c y (cs_pos s') Ey) as Ed. rewrite <- Hd in Ed. injection Ed as -> _. cbn [mbind option_bind].
      destruct HL' as [_ HC]. rewrite E, Forall_app, Forall_singleton in HC. destruct HC as [_ HC]. apply canon_cons in HC as ((X1 & X2) & _). rewrite level_var by lia. cbn [mbind option_bind]. rewrite El in *.
      destruct (Z.leb_spec l (Z.of_nat nv - Z.abs y + 1)); [unfold v in Hlt; lia|done].
  Qed.

  (** the clause of a vector *)
  Fixpoint clause_of (l : nat) (w : vec) : clause :=
    match l with
    | O => []
    | S l' => let x := Z.of_nat nv - Z.of_nat l + 1 in
              match w l with 0%nat => clause_of l' w | 1%nat => - x :: clause_of l' w | _ => x :: clause_of l' w end
    end.
  Lemma clause_above l w y : (l <= nv)%nat -> y ∈ clause_of l w -> Z.of_nat nv - Z.of_nat l < Z.abs y <= Z.of_nat nv.
  Proof.
    induction l as [|l IH]; cbn [clause_of]; intros Hl Hy; [by apply elem_of_nil in Hy|].
    assert (y ∈ clause_of l w \/ Z.abs y = Z.of_nat nv - Z.of_nat (S l) + 1) as [H|H].
    { destruct (w (S l)) as [|[|k]]; [by left| |]; (apply elem_of_cons in Hy as [->|Hy]; [right; lia|by left]). }
    - specialize (IH ltac:(lia) H). lia.
    - lia.
  Qed.
  Lemma eval_ok l s w : cinv s -> (l <= nv)%nat -> lcode nv (crest s) <= Z.of_nat l -> vec_ok 3 w ->
    zdd_eval (cn_spec nv cnf) l (lcode nv (crest s)) s w = true <-> clause_of l w ∈ crest s.
  Proof.
    revert s. induction l as [|l IH]; intros s HI Hl Hc Hw; pose proof HI as (_ & HL & _).
    - cbn [zdd_eval clause_of]. rewrite Z.ltb_lt. destruct (lcode_range nv _ HL) as [_ H]. destruct (H Hc) as [E|E]; rewrite E; cbn.
      + rewrite elem_of_nil. split; [lia|done].
      + rewrite elem_of_list_singleton. split; [done|lia].
    - cbn [zdd_eval]. destruct (Z.eqb_spec (lcode nv (crest s)) (Z.of_nat (S l))) as [Ec|Hne].
      + destruct (child_ok s (Z.of_nat (S l)) (w (S l)) HI ltac:(lia) Ec) as (s' & E & Er & HI' & Hlt).
        cbn [cn_spec get_child]. rewrite Ec, E. unfold default, id. cbn [fst snd]. rewrite IH; [|done|lia|lia|done]. rewrite Er. set (v := Z.of_nat nv - Z.of_nat (S l) + 1) in *. assert (0 < v) as Hv by lia.
        cbn [clause_of]. fold v. pose proof (Hw (S l)) as Hw'. destruct (w (S l)) as [|[|[|k]]]; [| | |lia].
        * rewrite lchild_0 by done. split; [tauto|]. intros H. split; [done|]. destruct (clause_of l w) as [|y c] eqn:Ey; [done|]. pose proof (clause_above l w y ltac:(lia)) as Hy. rewrite Ey in Hy. specialize (Hy ltac:(left)). unfold v. lia.
        * by rewrite lchild_1 by done.
        * rewrite (lchild_2 nv v) by (done || unfold v; lia). done.
      + cbn [clause_of]. destruct (Nat.eqb_spec (w (S l)) 0) as [E0|En].
        * rewrite E0. apply IH; [done|lia|lia|done].
        * split; [done|]. intros H. exfalso. set (v := Z.of_nat nv - Z.of_nat (S l) + 1) in *.
          assert (exists y, Z.abs y = v /\ exists c, c ∈ crest s /\ y ∈ c) as (y & Hy & c & Hcs & Hyc).
          { destruct (w (S l)) as [|[|k]]; [done| |]; [exists (- v)|exists v]; (split; [lia|]); eexists; (split; [exact H|left]). }
          destruct (lcode_bound nv _ c y HL Hcs Hyc) as [_ Hb]. unfold v in Hy. lia.
  Qed.

  Context (HL0 : linv nv cnf) (Hne : [] ∉ cnf).
  Lemma crest_all : crest (CState 0 (length cnf) 0) = cnf.
  Proof. unfold crest, between. cbn [cs_beg cs_end cs_pos]. rewrite drop_0, Nat.sub_0_r, firstn_all. rewrite <- (map_id cnf) at 2. apply map_ext. intros c. apply drop_0. Qed.
  Lemma cinv_all : cinv (CState 0 (length cnf) 0).
  Proof. split; [cbn; lia|]. rewrite crest_all. split; [done|]. apply Forall_forall. intros c _. cbn. lia. Qed.
  Lemma root_ok : exists s, cn_root nv cnf = Some (lcode nv cnf, s) /\ (0 < lcode nv cnf -> s = CState 0 (length cnf) 0) /\ (cnf = [] \/ 0 < lcode nv cnf).
  Proof.
    destruct (last_cases nv cnf HL0) as [->|[E|(L' & x & d & E & El)]].
    - exists (CState 0 0 0). split; [done|]. split; [cbn; lia|by left].
    - exfalso. apply Hne. rewrite E. left.
    - exists (CState 0 (length cnf) 0). destruct HL0 as [_ HC]. assert (canon nv (x :: d)) as Hx by (rewrite E, Forall_app, Forall_singleton in HC; apply HC). apply canon_cons in Hx as ((X1 & X2) & _).
      split; [|split; [done|right; lia]]. assert (cn_root nv cnf = (c ← cnf !! (length cnf - 1)%nat; x ← c !! 0%nat; l ← level_of_var nv (Z.abs x); Some (l, CState 0 (length cnf) 0))) as ->.
      { unfold cn_root. destruct cnf as [|a [|b L]] eqn:Ecnf; [by destruct L'| |]; [|by destruct a]. destruct a; [|done]. exfalso. apply Hne. left. }
      assert (cnf !! (length cnf - 1)%nat = Some (x :: d)) as ->.
      { rewrite E, lookup_app_r by (rewrite app_length; cbn; lia). replace (length (L' ++ [x :: d]) - 1 - length L')%nat with 0%nat by (rewrite app_length; cbn; lia). done. }
      cbn [lookup list_lookup mbind option_bind].
      rewrite level_var by lia. cbn [mbind option_bind]. by rewrite El.
  Qed.
  Lemma reach_inv l s : reach (cn_spec nv cnf) l s -> cinv s /\ 0 < l /\ lcode nv (crest s) = l.
  Proof.
    destruct root_ok as (s0 & E0 & Hs0 & _). induction 1 as [Hr|l s b Hr [HI [Hl IH]] Hb Hc].
    - cbn [cn_spec get_root] in *. rewrite E0 in *. unfold default, id in *. cbn [fst snd] in *. rewrite Hs0 by done. split; [apply cinv_all|]. split; [done|]. by rewrite crest_all.
    - cbn [cn_spec get_child] in *. destruct (child_ok s l b HI Hl IH) as (s' & E & _ & HI' & _). rewrite E in *. unfold default, id in *. cbn [fst snd] in *. done.
  Qed.
  Lemma zdd_eval_0 l s w : zdd_eval (cn_spec nv cnf) l 0 s w = false.
  Proof. induction l as [|l IH]; [done|]. cbn [zdd_eval]. destruct (Z.eqb_spec 0 (Z.of_nat (S l))); [lia|]. by destruct (_ =? _)%nat. Qed.
  Lemma sem_ok w : vec_ok 3 w -> zdd_sem (cn_spec nv cnf) nv w = true <-> clause_of nv w ∈ cnf.
  Proof.
    intros Hw. unfold zdd_sem. cbn [cn_spec get_root]. destruct root_ok as (s0 & -> & Hs0 & Hz). unfold default, id. cbn [fst snd]. fold (cn_spec nv cnf). destruct Hz as [E|Hz].
    - rewrite E at 2. cbn [lcode]. rewrite zdd_eval_0. rewrite E, elem_of_nil. done.
    - rewrite Hs0 by done. rewrite <- crest_all at 2 4. apply eval_ok; [apply cinv_all|done| |done]. rewrite crest_all. apply (lcode_range nv cnf HL0).
  Qed.

  (** ** the contract *)
  Lemma rest_eq_spec pos pos' (p q : clause) : rest_eq pos pos' p q = true <-> drop pos p = drop pos' q.
  Proof.
    unfold rest_eq. rewrite andb_true_iff, Nat.eqb_eq, forallb_forall. split.
    - intros [Hl H]. apply list_eq. intros i. rewrite !lookup_drop. destruct (decide (i < length p - pos)%nat) as [Hi|Hi].
      + specialize (H i). rewrite in_seq in H. specialize (H ltac:(lia)). by apply bool_decide_eq_true in H.
      + rewrite !lookup_ge_None_2 by lia. done.
    - intros E. split; [by rewrite <- !drop_length, E|]. intros i _. apply bool_decide_eq_true. rewrite <- !lookup_drop. by rewrite E.
  Qed.
  Lemma all_eq_spec pos pos' (ps qs : list clause) : length ps = length qs -> all_eq pos pos' ps qs = true <-> map (drop pos) ps = map (drop pos') qs.
  Proof.
    revert qs. induction ps as [|p ps IH]; intros [|q qs] Hl; try done. cbn [all_eq map]. rewrite andb_true_iff, rest_eq_spec, IH by (cbn in Hl; lia). split; [intros [-> ->]; done|by intros [= -> ->]].
  Qed.
  Lemma cs_eq_spec s o : cs_eq cnf s o = true <-> crest s = crest o.
  Proof.
    unfold cs_eq, crest. rewrite andb_true_iff, Nat.eqb_eq. split.
    - intros [Hl H]. by apply all_eq_spec.
    - intros E. assert (length (between cnf (cs_beg s) (cs_end s)) = length (between cnf (cs_beg o) (cs_end o))) as Hl by (by apply (f_equal length) in E; rewrite !map_length in E). split; [done|]. by apply all_eq_spec.
  Qed.
  Lemma cs_hash_spec s : cs_hash cnf s = foldl (foldl (fun h x => (h + Z.to_N (x mod 2 ^ 64)) * 314159257 mod 2 ^ 64)%N) 0%N (crest s).
  Proof. unfold cs_hash, crest. generalize 0%N. induction (between cnf (cs_beg s) (cs_end s)) as [|c L IH]; intros h; [done|]. cbn [foldl map]. apply IH. Qed.
  Lemma cn_congr : spec_congr (cn_spec nv cnf) /\ shareable (cn_spec nv cnf).
  Proof.
    split; [constructor|split]; cbn [cn_spec equal_to hash_code].
    - intros l s _. by apply cs_eq_spec.
    - intros l s o _ _. apply eq_true_iff_eq. rewrite !cs_eq_spec. done.
    - intros l s o o' _ _ _. rewrite !cs_eq_spec. congruence.
    - intros l s o b Hs Ho Hb. rewrite cs_eq_spec. intros E. apply reach_inv in Hs as (I1 & Hl & C1), Ho as (I2 & _ & C2).
      destruct (child_ok s l b I1 Hl C1) as (s' & E1 & R1 & _), (child_ok o l b I2 Hl C2) as (o' & E2 & R2 & _). cbn [cn_spec get_child]. rewrite E1, E2. unfold default, id. cbn [fst snd].
      assert (crest s' = crest o') as E' by (rewrite R1, R2; congruence). split; [by rewrite E'|]. intros _. by apply cs_eq_spec.
    - intros l s o. apply eq_true_iff_eq. rewrite !cs_eq_spec. done.
    - intros l s o. rewrite cs_eq_spec. intros E. by rewrite !cs_hash_spec, E.
  Qed.
  Lemma cn_codes : (forall l s b, reach (cn_spec nv cnf) l s -> -1 <= fst (get_child (cn_spec nv cnf) s l b) < l) /\ one_code (cn_spec nv cnf).
  Proof.
    assert (forall l s b, reach (cn_spec nv cnf) l s -> -1 <= fst (get_child (cn_spec nv cnf) s l b) < l) as H.
    { intros l s b Hr. apply reach_inv in Hr as (I1 & Hl & C1). destruct (child_ok s l b I1 Hl C1) as (s' & E1 & R1 & (_ & HL' & _) & Hlt). cbn [cn_spec get_child]. rewrite E1. unfold default, id. cbn [fst]. destruct (lcode_range nv _ HL'). lia. }
    split; [done|]. split.
    - cbn [cn_spec get_root]. destruct root_ok as (s0 & -> & _). unfold default, id. cbn [fst]. apply (lcode_range nv cnf HL0).
    - intros l s b Hr _. by apply H.
  Qed.
End mach.
