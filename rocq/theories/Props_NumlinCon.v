(** C61: the Numberlink program without -a. *)
From Verif Require Import Base Sem Ex M_Table Tree M_Engine M_Builder M_Reducer M_Subset M_Eval S_Eval S_Big M_Ops M_Conv Props_Reduce M_Equal S_Api P_Api Props_Api P_Bridge3
  M_Numlin M_NumlinProg M_NumlinCon S_Numlin P_Numlin2 P_Numlin3 P_Numlin4 P_Numlin5 P_Numlin6 P_Numlin7 Props_Numlin.
Local Open Scope nat_scope.

Section con.
Context (b : board) (Hb : board_ok b) (Hn : 2 <= b_cols b).
Notation n := (b_cols b). Notation m := (b_rows b). Notation top := (b_rows b * (b_cols b - 1)).
Lemma putv_ok a k x : k < length a -> putv a k x = Some (<[k := x]> a).
Proof. intros H. unfold putv. by rewrite (proj2 (Nat.ltb_lt _ _)). Qed.
Lemma cz_safe_step l st take : (1 <= l <= Z.of_nat top)%Z -> length (snd st) = n -> exists r, cz_child b st l take = Some r /\ length (snd (snd r)) = n /\ (-1 <= fst r < l)%Z.
Proof.
  intros Hl Hs. destruct st as [s a]. cbn [snd] in Hs. unfold cz_child. set (t := (dz_top b - l)%Z).
  assert (Ht : (0 <= t < Z.of_nat m * (Z.of_nat n - 1))%Z) by (unfold t, dz_top; nia).
  set (i := Z.to_nat (t / (Z.of_nat n - 1))). set (j := Z.to_nat (t mod (Z.of_nat n - 1))).
  assert (Hj : j < n - 1) by (pose proof (Z.mod_pos_bound t (Z.of_nat n - 1)); unfold j; lia).
  assert (Hi : i < m). { assert (t / (Z.of_nat n - 1) < Z.of_nat m)%Z by (apply Z.div_lt_upper_bound; lia). pose proof (Z.div_pos t (Z.of_nat n - 1)). unfold i. lia. }
  clearbody i j. destruct (lookup_lt_is_Some_2 a j) as [vj ->]; [lia|]. cbn [mbind option_bind]. destruct (lookup_lt_is_Some_2 a (S j)) as [vk ->]; [lia|]. cbn [mbind option_bind].
  assert (HN : exists r : Z * cz_state, Some (0%Z, (s, a)) = Some r /\ length (snd (snd r)) = n /\ (-1 <= fst r < l)%Z) by (eexists; split; [done|]; cbn [fst snd]; split; [done|lia]).
  destruct (take && _); [done|]. destruct (take && _); [done|]. destruct (take && _); [done|].
  destruct (dz_one_eq b Hb Hn i j) as (x & -> & _); [done|lia|]. cbn [mbind option_bind]. match goal with |- context [if ?c && v_south vk then _ else _] => set (s' := c) end. destruct (s' && v_south vk); [done|].
  assert (exists w, (if 1 <=? j then a !! (j - 1) else Some (VS false false false)) = Some w) as [w ->]. { destruct (1 <=? j); [|by eexists]. apply lookup_lt_is_Some_2. lia. }
  cbn [mbind option_bind]. rewrite putv_ok by lia. cbn [mbind option_bind]. destruct (v_east w && _ && _); [done|].
  assert (HZ : (-1 <= (if (0 <? l - 1)%Z then l - 1 else -1) < l)%Z) by (destruct (Z.ltb_spec 0 (l - 1)); lia).
  destruct (S j =? n - 1).
  - destruct (dz_one_eq b Hb Hn i (S j)) as (x' & -> & _); [done|lia|]. cbn [mbind option_bind]. rewrite putv_ok by (rewrite insert_length; lia). cbn [mbind option_bind]. destruct (take && _ && _); [done|].
    eexists. split; [done|]. cbn [fst snd]. rewrite !insert_length. done.
  - eexists. split; [done|]. cbn [fst snd]. rewrite !insert_length. done.
Qed.
Lemma cz_top : dz_top b = Z.of_nat top.
Proof. unfold dz_top. nia. Qed.
Lemma cz_reach l s : reach (cz_spec b) l s -> (1 <= l <= Z.of_nat top)%Z /\ length (snd s) = n.
Proof.
  induction 1 as [Hp|l s k Hr [Hl Hs] Hk Hp].
  - cbn [cz_spec get_root] in *. unfold cz_root, default, from_option, id in *. cbn [fst snd] in *. rewrite cz_top in *. rewrite replicate_length. split; [lia|done].
  - cbn [cz_spec get_child] in *. destruct (cz_safe_step l s (negb (k =? 0)) Hl Hs) as ([c d] & Er & Hd & Hc). rewrite Er in *. unfold default, id in *. cbn [fst snd] in *. split; [lia|done].
Qed.
End con.

(** ConstraintZdd keeps the contract and never leaves its arrays. *)
Theorem C61_constraint_safe : forall (b : board), board_ok b -> 2 <= b_cols b ->
  is_Some (cz_root b) /\ (forall l s c, reach (cz_spec b) l s -> is_Some (cz_child b s l (negb (c =? 0)))) /\
  let sp := cz_spec b in spec_ok sp /\ spec_congr sp /\ one_code sp /\ shareable sp.
Proof.
  intros b Hb Hn. split; [by eexists|]. split.
  - intros l s c Hr. destruct (cz_reach b Hb Hn l s Hr) as [Hl Hs]. destruct (cz_safe_step b Hb Hn l s (negb (c =? 0)) Hl Hs) as (r & -> & _). by eexists.
  - intros sp. destruct (value_contract sp) as (? & ? & ?).
    + done.
    + intros l s s'. apply bool_decide_eq_true.
    + cbn [sp cz_spec get_root]. unfold cz_root, default, from_option, id. cbn [fst]. rewrite cz_top by done. apply (Z.le_trans _ 0); [lia|apply Nat2Z.is_nonneg].
    + intros l s c Hr Hc. destruct (cz_reach b Hb Hn l s Hr) as [Hl Hs]. destruct (cz_safe_step b Hb Hn l s (negb (c =? 0)) Hl Hs) as ([x y] & E & _ & Hx). cbn [sp cz_spec get_child]. rewrite E. cbn in *. lia.
    + split_and!; [done|done|done|]. split; cbn [sp cz_spec equal_to hash_code]; [intros; apply bool_decide_ext; split; congruence|]. intros l s s' E. apply bool_decide_eq_true in E. by subst.
Qed.

Lemma short_api b k : board_ok b -> 1 <= b_rows b -> 2 <= b_cols b -> fits b k -> let top := b_rows b * (b_cols b - 1) in
  exists P, api_spec 2 top AZdd (zdd_lookahead (zdd_intersection (cz_spec b) (nl_spec (Numlin b k)))) P /\
    forall v, P v = true <-> zdd_sem (cz_spec b) top v = true /\ exists vl, solved b (links_of_vec b v) vl k.
Proof.
  intros Hb Hr Hc Hf top. destruct (C61_contract b k Hb Hc Hf) as [(N1 & N2 & N3 & _) _]. destruct (C61_constraint_safe b Hb Hc) as (_ & _ & D1 & D2 & D3 & _). eexists. split.
  - apply as_zdd_lookahead, as_intersection; [done|apply as_user|apply as_user]; try done.
    + unfold top_level. cbn [cz_spec get_root]. unfold cz_root, default, from_option, id. cbn [fst]. rewrite cz_top by done. rewrite Nat2Z.id. done.
    + unfold top_level. cbn [nl_spec get_root]. destruct Hf as [Hs Hk]. destruct (root_inv (Numlin b k) Hb Hc Hs (fun _ _ => false)) as (s & -> & _). unfold default, id. cbn [fst]. rewrite Nat2Z.id. done.
  - intros v. cbn [means]. rewrite andb_true_iff. unfold top. rewrite C61_numlin by done. done.
Qed.
Lemma short_program_api b k d : playable b k -> ddnumlin_short b k d -> let quiz := if b_rows b <? b_cols b then flipped b else b in let top := b_rows quiz * (b_cols quiz - 1) in
  exists P, api_dd 2 top AZdd d P /\
    forall v, P v = true <-> zdd_sem (cz_spec quiz) top v = true /\ exists vl, solved quiz (links_of_vec quiz v) vl k.
Proof.
  intros HP (quiz' & h & v & tr & d0 & Ep & HC & HR) quiz top. destruct (prepared b k HP) as ((h' & v' & Ep') & Hb & Hr & Hc & Hf). fold quiz in Ep', Hb, Hr, Hc, Hf.
  rewrite Ep' in Ep. injection Ep as <- _ _ _. destruct (short_api quiz k Hb ltac:(lia) Hc Hf) as (P & AP & HM). exists P. split; [|done]. eapply ad_reduce; [|exact HR]. eapply ad_construct; [exact AP|exact HC].
Qed.

(** Without -a, for every schedule: it never gets stuck; the number printed is that of some of the solutions (those that
    ConstraintZdd lets pass), and what is drawn for a set of the diagram is a solution. *)
Theorem C61_short : forall (b : board) (k : Z), playable b k ->
  (exists d, ddnumlin_short b k d) /\
  forall d, ddnumlin_short b k d ->
    (forall junk, exists ds (A : list (list (list bool) * list (list bool))),
      zdd_cardinality (max_words 2) junk d = Some ds /\ decimal ds (N.of_nat (length A)) /\ NoDup A /\ forall h v, (h, v) ∈ A -> drawing b k h v) /\
    exists quiz h0 v0 transposed, nl_prepare b = Some ((quiz, h0, v0), transposed) /\
      forall set, vec_ok 2 set -> zdd_sem (dd_spec d) (b_rows quiz * (b_cols quiz - 1)) set = true -> exists h v, nl_answer quiz transposed set = Some (b, h, v) /\ drawing b k h v.
Proof.
  intros b k HP. destruct (prepared b k HP) as ((h0 & v0 & Ep) & Hqb & Hqr & Hqc & Hqf). set (quiz := if b_rows b <? b_cols b then flipped b else b) in *. split.
  - destruct (short_api quiz k Hqb ltac:(lia) Hqc Hqf) as (P & AP & _). set (top := b_rows quiz * (b_cols quiz - 1)) in *.
    destruct (C54_progress 2 top ltac:(lia)) as (PS & PD & _ & _). destruct (PS _ _ _ AP) as [[d0 E0] _].
    assert (constructed (zdd_lookahead (zdd_intersection (cz_spec quiz) (nl_spec (Numlin quiz k)))) d0) as H0 by (by apply con_sequential).
    assert (api_dd 2 top AZdd d0 P) as A0 by (eapply ad_construct; [exact AP|exact H0]).
    destruct (PD _ _ _ A0) as (_ & ([d1 E1] & _) & _). exists d1, quiz, h0, v0, (b_rows b <? b_cols b), d0. split; [done|]. split; [done|]. by apply red_sequential.
  - intros d Hd. destruct (short_program_api b k d HP Hd) as (P & HD & HM). fold quiz in HD, HM. split.
    + intros junk. destruct (C54_count 2 _ d P junk ltac:(lia) HD) as (ds & N & E & HN & L & H1 & -> & H3).
      exists ds, (map (fun l => ansf b (vec_of_list l)) L). rewrite map_length. split; [done|]. split; [done|]. split.
      * apply NoDup_fmap_2_strong; [|done]. intros l l' Hl Hl' Eq. apply H3 in Hl as (Q1 & Q2 & _). apply H3 in Hl' as (Q1' & Q2' & _). by apply (ans_inj b k HP).
      * intros h v Hin. apply elem_of_list_fmap in Hin as (l & El & Hl). apply H3 in Hl as (Q1 & Q2 & Q3). apply HM in Q3 as [_ Q3]. pose proof (ans_sound b k HP _ Q3) as HS. by rewrite <- El in HS.
    + exists quiz, h0, v0, (b_rows b <? b_cols b). split; [done|]. destruct (C54_meaning 2 _ AZdd d P ltac:(lia) HD) as (_ & _ & _ & HS). cbn [means] in HS.
      intros set Hv Hz. rewrite HS in Hz by done. apply HM in Hz as [_ Hz]. eexists _, _. split; [by apply (ans_eq b k)|]. by apply ans_sound.
Qed.

(** A limit on the blank cells does not go with the detours that ConstraintZdd forbids: the board whose only solution without blank
    cells is a snake is said to have none. *)
Theorem C61_short_refuted : ~ forall (b : board) (k : Z) d h v junk, playable b k -> ddnumlin_short b k d -> drawing b k h v ->
  exists ds N, zdd_cardinality (max_words 2) junk d = Some ds /\ decimal ds N /\ N <> 0%N.
Proof.
  intros H. assert (playable corners 0) as HP by (apply corners_playable; lia). destruct C61_case as (_ & _ & HD & _).
  set (quiz := flipped corners).
  destruct (construct_dd (zdd_lookahead (zdd_intersection (cz_spec quiz) (nl_spec (Numlin quiz 0))))) as [d0|] eqn:E0; [|by vm_compute in E0].
  destruct (reduce_seq false true d0) as [d1|] eqn:E1.
  2: { assert ((d ← construct_dd (zdd_lookahead (zdd_intersection (cz_spec quiz) (nl_spec (Numlin quiz 0)))); reduce_seq false true d) <> None) as HX by (vm_compute; discriminate).
       rewrite E0 in HX. cbn [mbind option_bind] in HX. congruence. }
  assert (zdd_cardinality (max_words 2) (fun _ => 0%N) d1 = Some [0%N]) as EC.
  { assert ((d ← construct_dd (zdd_lookahead (zdd_intersection (cz_spec quiz) (nl_spec (Numlin quiz 0)))); d ← reduce_seq false true d; zdd_cardinality (max_words 2) (fun _ => 0%N) d) = Some [0%N]) as HX by (vm_compute; reflexivity).
    rewrite E0 in HX. cbn [mbind option_bind] in HX. rewrite E1 in HX. exact HX. }
  destruct (prepared corners 0 HP) as ((h & v & Ep) & _). cbn [corners b_rows b_cols Nat.ltb Nat.leb] in Ep. fold corners in Ep. fold quiz in Ep.
  assert (ddnumlin_short corners 0 d1) as HS by (exists quiz, h, v, true, d0; split; [done|]; split; [by apply con_sequential|by apply red_sequential]).
  destruct (H _ _ _ _ _ (fun _ => 0%N) HP HS HD) as (ds & N & E & Hdec & HN).
  rewrite EC in E. injection E as <-. apply HN. destruct Hdec as (_ & Hd & _). by cbn in Hd.
Qed.

(** without a limit the same board has one solution that passes, the shortest one in its corner *)
Example C61_short_case : playable corners (-1) /\
  (d ← construct_dd (zdd_lookahead (zdd_intersection (cz_spec (flipped corners)) (nl_spec (Numlin (flipped corners) (-1))))); d ← reduce_seq false true d; zdd_cardinality (max_words 2) (fun _ => 0%N) d) = Some [1%N].
Proof. split; [apply corners_playable; lia|]. vm_compute. reflexivity. Qed.

Print Assumptions C61_constraint_safe.
Print Assumptions C61_short.
Print Assumptions C61_short_refuted.
Print Assumptions C61_short_case.
