(** C61: the Numberlink solver. *)
From Verif Require Import Base Sem Ex M_Table Tree M_Engine M_Builder M_Reducer M_Subset M_Eval S_Eval S_Big M_Ops M_Conv Props_Reduce M_Equal S_Api P_Api Props_Api P_Bridge3
  M_Numlin M_NumlinProg S_Numlin P_Numlin2 P_Numlin3 P_Numlin4 P_Numlin5 P_Numlin6 P_Numlin7.
Local Open Scope nat_scope.

(** NumlinZdd(quiz, k): exactly the sets of horizontal links that vertical links complete to a solution with at most k cells
    that are not used. *)
Theorem C61_numlin : forall (b : board) (k : Z) (v : vec), board_ok b -> 2 <= b_cols b -> fits b k ->
  zdd_sem (nl_spec (Numlin b k)) (b_rows b * (b_cols b - 1)) v = true <-> exists vl, solved b (links_of_vec b v) vl k.
Proof. intros b k v Hb Hn [Hs Hk]. rewrite (sem_good (Numlin b k) Hb Hn Hs Hk v). by apply (good_solution (Numlin b k) Hb Hn). Qed.

(** The vertical links are determined by the horizontal ones, and makeVerticalLinks finds them. *)
Theorem C61_vertical : forall (b : board) (hl vl : nat -> nat -> bool), board_ok b -> 2 <= b_cols b -> degrees_ok b hl vl ->
  exists w, makeVerticalLinks b hl = Some w /\ shape (b_rows b - 1) (b_cols b) w /\
    forall i j, S i < b_rows b -> j < b_cols b -> cell w i j = vl i j.
Proof.
  intros b hl vl Hb Hn HD. eexists. split; [by apply mv_eq|]. split; [apply shape_matrix|]. intros i j Hi Hj.
  change (cell (matrix (b_rows b - 1) (b_cols b) (vdn b hl)) i j = vl i j). rewrite cell_matrix by lia. symmetry. by apply vdn_of.
Qed.

(** DegreeZdd(quiz): the sets of horizontal links that vertical links complete so that all degrees are right; a
    superset of the solutions. *)
Theorem C61_degree : forall (b : board) (v : vec), board_ok b -> 2 <= b_cols b ->
  (zdd_sem (dz_spec b) (b_rows b * (b_cols b - 1)) v = true <-> exists vl, degrees_ok b (links_of_vec b v) vl) /\
  forall vl, solution b (links_of_vec b v) vl -> zdd_sem (dz_spec b) (b_rows b * (b_cols b - 1)) v = true.
Proof. intros b v Hb Hn. split; [by apply dsem|]. intros vl Hs. apply dsem; [done|done|]. exists vl. by apply sol_degrees. Qed.

(** Every access to the board and to the arrays of mates and degrees is in range in every state that can occur. *)
Theorem C61_memory_safe : forall (b : board) (k : Z), board_ok b -> 2 <= b_cols b -> fits b k ->
  is_Some (nl_root (Numlin b k)) /\ (forall l s c, reach (nl_spec (Numlin b k)) l s -> is_Some (nl_child (Numlin b k) s l (negb (c =? 0)))) /\
  is_Some (dz_root b) /\ (forall l s c, reach (dz_spec b) l s -> is_Some (dz_child b s l (negb (c =? 0)))).
Proof.
  intros b k Hb Hn [Hs Hk]. split_and!.
  - destruct (root_inv (Numlin b k) Hb Hn Hs (fun _ _ => false)) as (s & -> & _). by eexists.
  - intros l s c Hr. destruct (nl_facts (Numlin b k) Hb Hn Hs Hk l s (negb (c =? 0)) Hr) as (r & -> & _). by eexists.
  - destruct (droot b Hb Hn (fun _ _ => false)) as (s & -> & _). by eexists.
  - intros l s c Hr. destruct (dz_reach b Hb Hn l s Hr) as [Hl Hl']. destruct (dz_safe_step b Hb Hn l s (negb (c =? 0)) Hl Hl') as (r & -> & _). by eexists.
Qed.

(** Both keep the contract of specifications. *)
Theorem C61_contract : forall (b : board) (k : Z), board_ok b -> 2 <= b_cols b -> fits b k ->
  (let sp := nl_spec (Numlin b k) in spec_ok sp /\ spec_congr sp /\ one_code sp /\ shareable sp) /\
  (let sp := dz_spec b in spec_ok sp /\ spec_congr sp /\ one_code sp /\ shareable sp).
Proof.
  intros b k Hb Hn [Hs Hk]. split; intros sp.
  - destruct (value_contract sp) as (? & ? & ?).
    + done.
    + intros l s s'. apply bool_decide_eq_true.
    + cbn [sp nl_spec get_root]. destruct (root_inv (Numlin b k) Hb Hn Hs (fun _ _ => false)) as (s & -> & _). apply (Z.le_trans _ 0); [lia|apply Nat2Z.is_nonneg].
    + intros l s c Hr Hc. destruct (nl_facts (Numlin b k) Hb Hn Hs Hk l s (negb (c =? 0)) Hr) as ([x y] & E & Hx). cbn [sp nl_spec get_child]. rewrite E. cbn in *. lia.
    + split_and!; [done|done|done|]. split; cbn [sp nl_spec equal_to hash_code]; [intros; apply bool_decide_ext; split; congruence|]. intros l s s' E. apply bool_decide_eq_true in E. by subst.
  - destruct (value_contract sp) as (? & ? & ?).
    + done.
    + intros l s s'. apply bool_decide_eq_true.
    + cbn [sp dz_spec get_root]. destruct (droot b Hb Hn (fun _ _ => false)) as (s & -> & _). apply (Z.le_trans _ 0); [lia|apply Nat2Z.is_nonneg].
    + intros l s c Hr Hc. destruct (dz_reach b Hb Hn l s Hr) as [Hl Hl']. destruct (dz_safe_step b Hb Hn l s (negb (c =? 0)) Hl Hl') as ([x y] & E & _ & Hx). cbn [sp dz_spec get_child]. rewrite E. cbn in *. lia.
    + split_and!; [done|done|done|]. split; cbn [sp dz_spec equal_to hash_code]; [intros; apply bool_decide_ext; split; congruence|]. intros l s s' E. apply bool_decide_eq_true in E. by subst.
Qed.

(** ** the program *)
(** what the program needs of a board: at least two rows and columns, and numbers that fit with the smaller side *)
Definition playable (b : board) (k : Z) : Prop :=
  board_ok b /\ 2 <= b_rows b /\ 2 <= b_cols b /\
  (forall i j t, b_num b i j = Some t -> (Z.of_nat (Nat.min (b_rows b) (b_cols b)) + t <= 255)%Z) /\ (k <= 65535)%Z.

Lemma prepared b k : playable b k -> let tr := b_rows b <? b_cols b in let quiz := if tr then flipped b else b in
  (exists h v, nl_prepare b = Some ((quiz, h, v), tr)) /\ board_ok quiz /\ 2 <= b_rows quiz /\ 2 <= b_cols quiz /\ fits quiz k.
Proof.
  intros (Hb & Hr & Hc & Hs & Hk) tr quiz. unfold nl_prepare. fold tr. unfold quiz. destruct (flipped_ok b Hb) as (Hf & HM & _). destruct tr eqn:Et; unfold tr in Et.
  - apply Nat.ltb_lt in Et. unfold b_read. rewrite !no_links_matrix, transpose_ok by done. cbn [mbind option_bind]. split; [by eexists _, _|]. split; [done|]. split; [done|]. split; [done|].
    split; [|done]. intros i j t Ht. rewrite (mirror_num b (flipped b) j i Hb Hf HM) in Ht. apply Hs in Ht. cbn [flipped b_cols]. lia.
  - apply Nat.ltb_ge in Et. split; [by eexists _, _|]. split; [done|]. split; [done|]. split; [done|]. split; [|done]. intros i j t Ht. apply Hs in Ht. lia.
Qed.

Lemma numlin_api b k : board_ok b -> 1 <= b_rows b -> 2 <= b_cols b -> fits b k -> let top := b_rows b * (b_cols b - 1) in
  api_spec 2 top AZdd (zdd_lookahead (dz_spec b)) (means AZdd (dz_spec b) top) /\ api_spec 2 top AZdd (zdd_lookahead (nl_spec (Numlin b k))) (means AZdd (nl_spec (Numlin b k)) top).
Proof.
  intros Hb Hr Hc Hf top. destruct (C61_contract b k Hb Hc Hf) as [(N1 & N2 & N3 & _) (D1 & D2 & D3 & _)]. split; apply as_zdd_lookahead, as_user; try done.
  - unfold top_level. cbn [dz_spec get_root]. destruct (droot b Hb Hc (fun _ _ => false)) as (s & -> & _). unfold default, id. cbn [fst]. rewrite Nat2Z.id. done.
  - unfold top_level. cbn [nl_spec get_root]. destruct Hf as [Hs Hk]. destruct (root_inv (Numlin b k) Hb Hc Hs (fun _ _ => false)) as (s & -> & _). unfold default, id. cbn [fst]. rewrite Nat2Z.id. done.
Qed.
Lemma program_api b k d : playable b k -> ddnumlin_all b k d -> let quiz := if b_rows b <? b_cols b then flipped b else b in
  exists d0 P, api_dd 2 (b_rows quiz * (b_cols quiz - 1)) AZdd d0 P /\ reduction false true d0 d /\
    forall v, P v = true <-> exists vl, solved quiz (links_of_vec quiz v) vl k.
Proof.
  intros HP (quiz' & h & v & tr & d0 & d1 & d2 & Ep & HC & HR & HS & HR2) quiz. destruct (prepared b k HP) as ((h' & v' & Ep') & Hb & Hr & Hc & Hf). fold quiz in Ep', Hb, Hr, Hc, Hf.
  rewrite Ep' in Ep. injection Ep as <- _ _ _. destruct (numlin_api quiz k Hb ltac:(lia) Hc Hf) as [AD AN].
  exists d2. eexists. split; [eapply ad_subset; [eapply ad_reduce; [eapply ad_construct; [exact AD|exact HC]|exact HR]|exact AN|exact HS]|]. split; [done|].
  intros u. cbn [means]. rewrite andb_true_iff. rewrite C61_numlin by done. destruct (C61_degree quiz u Hb Hc) as [_ HD]. split; [tauto|]. intros (vl & Hs). split; [|by exists vl]. apply (HD vl), Hs.
Qed.

(** the answer that belongs to a set *)
Section ans.
Context (b : board) (k : Z) (HP : playable b k).
Notation tr := (b_rows b <? b_cols b).
Notation quiz := (if b_rows b <? b_cols b then flipped b else b).
Definition ansf (set : vec) : list (list bool) * list (list bool) :=
  let H := links_of_vec quiz set in let V := vdn quiz H in
  if tr then (matrix (b_rows b) (b_cols b - 1) (fun i j => V j i), matrix (b_rows b - 1) (b_cols b) (fun i j => H j i))
  else (matrix (b_rows b) (b_cols b - 1) H, matrix (b_rows b - 1) (b_cols b) V).
Lemma ans_eq set : nl_answer quiz tr set = Some (b, fst (ansf set), snd (ansf set)).
Proof.
  destruct HP as (Hb & Hr & Hc & Hs & Hk). unfold nl_answer, ansf. fold (links_of_vec quiz set). destruct (flipped_ok b Hb) as (Hf & HM & Hff). destruct tr eqn:Et; cbn [fst snd].
  - rewrite mv_eq by done. cbn [mbind option_bind].
    change (b_transpose (flipped b, matrix (b_rows (flipped b)) (b_cols (flipped b) - 1) (links_of_vec (flipped b) set), matrix (b_rows (flipped b) - 1) (b_cols (flipped b)) (vdn (flipped b) (links_of_vec (flipped b) set))) =
      Some (b, matrix (b_rows b) (b_cols b - 1) (fun i j => vdn (flipped b) (links_of_vec (flipped b) set) j i), matrix (b_rows b - 1) (b_cols b) (fun i j => links_of_vec (flipped b) set j i))).
    rewrite transpose_ok by done. rewrite Hff. done.
  - rewrite mv_eq by done. done.
Qed.
Lemma ans_shape set : shape (b_rows b) (b_cols b - 1) (fst (ansf set)) /\ shape (b_rows b - 1) (b_cols b) (snd (ansf set)).
Proof. unfold ansf. destruct tr; split; apply shape_matrix. Qed.
Lemma ans_sound set : (exists vl, solved quiz (links_of_vec quiz set) vl k) -> drawing b k (fst (ansf set)) (snd (ansf set)).
Proof.
  intros (vl & Hsol). destruct (prepared b k HP) as (_ & Hqb & Hqr & Hqc & Hqf). destruct (ans_shape set) as [S1 S2]. split; [done|]. split; [done|].
  assert (solved quiz (links_of_vec quiz set) (vdn quiz (links_of_vec quiz set)) k) as HS.
  { eapply solved_ext; [done| |exact Hsol]. apply vdn_of; [done|done|]. apply sol_degrees,  Hsol. }
  destruct HP as (Hb & Hr & Hc & Hs & Hk). destruct (flipped_ok b Hb) as (Hf & HM & Hff). unfold ansf. destruct tr eqn:Et; cbn [fst snd].
  - apply (mirror_solved b (flipped b)); [done|done|done|]. eapply solved_ext; [| |exact HS]; cbn [flipped b_rows b_cols]; intros i j Hi Hj; by rewrite cell_matrix by lia.
  - eapply solved_ext; [| |exact HS]; intros i j Hi Hj; by rewrite cell_matrix by lia.
Qed.
Lemma ans_complete h v : drawing b k h v -> exists l, length l = b_rows quiz * (b_cols quiz - 1) /\ Forall (fun x => x < 2) l /\
  (exists vl, solved quiz (links_of_vec quiz (vec_of_list l)) vl k) /\ ansf (vec_of_list l) = (h, v).
Proof.
  intros (S1 & S2 & Hsol). destruct (prepared b k HP) as (_ & Hqb & Hqr & Hqc & Hqf).
  destruct HP as (Hb & Hr & Hc & Hs & Hk). destruct (flipped_ok b Hb) as (Hf & HM & Hff).
  assert (exists H V, solved quiz H V k /\ if tr then (H = fun i j => cell v j i) /\ (V = fun i j => cell h j i) else H = cell h /\ V = cell v) as (H & V & HS & HHV).
  { destruct tr; [|by exists (cell h), (cell v)]. eexists _, _. split; [|done]. exact (proj1 (mirror_solved b (flipped b) (cell h) (cell v) k Hb Hf HM) Hsol). }
  destruct (list_of_links_ok quiz Hqc H) as (L1 & L2 & L3). exists (list_of_links quiz H). split; [done|]. split; [done|].
  assert (solved quiz (links_of_vec quiz (vec_of_list (list_of_links quiz H))) V k) as HS'.
  { eapply solved_ext; [|done|exact HS]. intros i j Hi Hj. symmetry. apply L3; lia. }
  split; [by exists V|]. assert (HV : forall i j, S i < b_rows quiz -> j < b_cols quiz -> V i j = vdn quiz (links_of_vec quiz (vec_of_list (list_of_links quiz H))) i j).
  { apply vdn_of; [done|done|]. apply sol_degrees,  HS'. }
  rewrite (of_shape _ _ _ S1), (of_shape _ _ _ S2). unfold ansf. destruct tr; destruct HHV as [-> ->]; f_equal; apply matrix_ext; intros i j Hi Hj.
  - rewrite <- HV; [done|cbn [flipped b_rows]; lia|done].
  - rewrite L3; [done|done|cbn [flipped b_cols]; lia].
  - rewrite L3; [done|done|lia].
  - rewrite <- HV; [done|lia|done].
Qed.
Lemma ans_inj l l' : length l = b_rows quiz * (b_cols quiz - 1) -> length l' = b_rows quiz * (b_cols quiz - 1) -> Forall (fun x => x < 2) l -> Forall (fun x => x < 2) l' ->
  ansf (vec_of_list l) = ansf (vec_of_list l') -> l = l'.
Proof.
  intros L1 L2 F1 F2 E. destruct (prepared b k HP) as (_ & Hqb & Hqr & Hqc & Hqf). destruct HP as (Hb & Hr & Hc & Hs & Hk). apply (links_inj quiz Hqc l l' L1 L2 F1 F2). unfold ansf in E.
  destruct tr; injection E as E1 E2; intros i j Hi Hj; cbn [flipped b_rows b_cols] in Hi, Hj.
  - pose proof (f_equal (fun M => cell M j i) E2) as E3. cbn beta in E3. by rewrite !cell_matrix in E3 by lia.
  - pose proof (f_equal (fun M => cell M i j) E1) as E3. cbn beta in E3. by rewrite !cell_matrix in E3 by lia.
Qed.
End ans.

(** ddnumlin -a, for every schedule: it never gets stuck; zddCardinality prints the number of solutions of the puzzle. *)
Theorem C61_program : forall (b : board) (k : Z), playable b k ->
  (exists d, ddnumlin_all b k d) /\
  forall d, ddnumlin_all b k d -> forall junk, exists ds (A : list (list (list bool) * list (list bool))),
    zdd_cardinality (max_words 2) junk d = Some ds /\ decimal ds (N.of_nat (length A)) /\
    NoDup A /\ forall h v, (h, v) ∈ A <-> drawing b k h v.
Proof.
  intros b k HP. destruct (prepared b k HP) as ((h0 & v0 & Ep) & Hqb & Hqr & Hqc & Hqf). set (quiz := if b_rows b <? b_cols b then flipped b else b) in *. split.
  - destruct (numlin_api quiz k Hqb ltac:(lia) Hqc Hqf) as [AD AN]. set (top := b_rows quiz * (b_cols quiz - 1)) in *.
    destruct (C54_progress 2 top ltac:(lia)) as (PS & PD & PU & _). destruct (PS _ _ _ AD) as [[d0 E0] _].
    assert (constructed (zdd_lookahead (dz_spec quiz)) d0) as H0 by (by apply con_sequential).
    assert (api_dd 2 top AZdd d0 _) as A0 by (eapply ad_construct; [exact AD|exact H0]).
    destruct (PD _ _ _ A0) as (_ & ([d1 E1] & _) & _). assert (reduction false true d0 d1) as H1 by (by apply red_sequential).
    assert (api_dd 2 top AZdd d1 _) as A1 by (eapply ad_reduce; [exact A0|exact H1]).
    destruct (PU _ _ _ _ A1 AN) as [HS _]. destruct (HS false) as [d2 E2].
    assert (subsetted d1 (zdd_lookahead (nl_spec (Numlin quiz k))) d2) as H2 by (by eapply sub_sequential).
    assert (api_dd 2 top AZdd d2 _) as A2 by (eapply ad_subset; [exact A1|exact AN|exact H2]).
    destruct (PD _ _ _ A2) as (_ & ([d3 E3] & _) & _). assert (reduction false true d2 d3) as H3 by (by apply red_sequential).
    exists d3, quiz, h0, v0, (b_rows b <? b_cols b), d0, d1, d2. done.
  - intros d Hd junk. destruct (program_api b k d HP Hd) as (d0 & P & HA & HR & HM). fold quiz in HA, HM.
    assert (api_dd 2 (b_rows quiz * (b_cols quiz - 1)) AZdd d P) as HD by (by eapply ad_reduce).
    destruct (C54_count 2 _ d P junk ltac:(lia) HD) as (ds & N & E & HN & L & H1 & -> & H3).
    exists ds, (map (fun l => ansf b (vec_of_list l)) L). rewrite map_length. split; [done|]. split; [done|]. split.
    + apply NoDup_fmap_2_strong; [|done]. intros l l' Hl Hl' Eq. apply H3 in Hl as (Q1 & Q2 & _). apply H3 in Hl' as (Q1' & Q2' & _). by apply (ans_inj b k HP).
    + intros h v. split.
      * intros Hin. apply elem_of_list_fmap in Hin as (l & El & Hl). apply H3 in Hl as (Q1 & Q2 & Q3). apply HM in Q3. pose proof (ans_sound b k HP _ Q3) as HS. by rewrite <- El in HS.
      * intros HS. destruct (ans_complete b k HP h v HS) as (l & Q1 & Q2 & Q3 & Q4). apply elem_of_list_fmap. exists l. split; [done|]. apply H3. split; [done|]. split; [done|]. by apply HM.
Qed.

(** Each set of the diagram is drawn as a solution of the board that was read (also when it was transposed), and every solution is
    drawn for some set. *)
Theorem C61_drawing : forall (b : board) (k : Z) d, playable b k -> ddnumlin_all b k d ->
  exists quiz h0 v0 transposed, nl_prepare b = Some ((quiz, h0, v0), transposed) /\
  let family v := vec_ok 2 v /\ zdd_sem (dd_spec d) (b_rows quiz * (b_cols quiz - 1)) v = true in
  (forall set, family set -> exists h v, nl_answer quiz transposed set = Some (b, h, v) /\ drawing b k h v) /\
  (forall h v, drawing b k h v -> exists set, family set /\ nl_answer quiz transposed set = Some (b, h, v)).
Proof.
  intros b k d HP Hd. destruct (prepared b k HP) as ((h0 & v0 & Ep) & Hqb & Hqr & Hqc & Hqf). pose proof (program_api b k d HP Hd) as (d0 & P & HA & HR & HM).
  exists (if b_rows b <? b_cols b then flipped b else b), h0, v0, (b_rows b <? b_cols b). split; [done|].
  assert (api_dd 2 _ AZdd d P) as HD by (by eapply ad_reduce). destruct (C54_meaning 2 _ AZdd d P ltac:(lia) HD) as (_ & _ & _ & HS). cbn [means] in HS. cbv zeta. split.
  - intros set [Hv Hz]. rewrite HS in Hz by done. apply HM in Hz. eexists _, _. split; [by apply (ans_eq b k)|]. by apply ans_sound.
  - intros h v HDr. destruct (ans_complete b k HP h v HDr) as (l & Q1 & Q2 & Q3 & Q4). exists (vec_of_list l).
    assert (vec_ok 2 (vec_of_list l)) as Hv.
    { intros i. unfold vec_of_list. destruct (le_lt_dec (length l) (i - 1)) as [Hi|Hi]; [rewrite nth_overflow by done; lia|]. rewrite Forall_forall in Q2. apply Q2, elem_of_list_In, nth_In. done. }
    split; [split; [done|]; rewrite HS by done; by apply HM|]. rewrite (ans_eq b k HP), Q4. done.
Qed.

(** ** where the program goes wrong *)
Local Ltac bnum := intros i j t; unfold b_num; destruct i as [|[|i]]; cbn [b_number lookup list_lookup mbind option_bind]; rewrite ?lookup_nil; try done;
  destruct j as [|[|[|j]]]; cbn; rewrite ?lookup_nil; try done; intros [= <-]; lia.
(** One column: the root has level 0, so the family is empty although there is a solution. *)
Definition col2 : board := Board 2 1 [[1]; [1]]%Z.
Lemma link_case b hl vl c d : linked b hl vl c d -> fst c = fst d /\ (snd d = S (snd c) /\ hl (fst c) (snd c) = true \/ snd c = S (snd d) /\ hl (fst d) (snd d) = true) \/
  snd c = snd d /\ (fst d = S (fst c) /\ vl (fst c) (snd c) = true \/ fst c = S (fst d) /\ vl (fst d) (snd d) = true).
Proof. destruct c as [i j], d as [i' j']. unfold linked, right_of, below. cbn [fst snd]. intros (_ & _ & [[E ?]|[[E ?]|[[E ?]|[E ?]]]]); injection E as -> ->; auto 10. Qed.
Theorem C61_one_column_refuted : ~ forall (b : board) (k : Z) (v : vec), board_ok b -> fits b k -> vec_ok 2 v ->
  (exists vl, solved b (links_of_vec b v) vl k) -> zdd_sem (nl_spec (Numlin b k)) (b_rows b * (b_cols b - 1)) v = true.
Proof.
  intros H. assert (zdd_sem (nl_spec (Numlin col2 (-1))) 0 (fun _ => 0) = false) as E by reflexivity.
  enough (zdd_sem (nl_spec (Numlin col2 (-1))) 0 (fun _ => 0) = true) by congruence. apply (H col2 (-1)%Z (fun _ => 0)).
  - split_and!; [cbn; lia|cbn; lia|done| |].
    + intros i r. destruct i as [|[|i]]; cbn; [intros [= <-]; done|intros [= <-]; done|done].
    + bnum.
  - split; [|lia]. bnum.
  - intros ?. lia.
  - set (hl := links_of_vec col2 (fun _ => 0)). exists (fun _ _ => true). assert (HL : forall c d, linked col2 hl (fun _ _ => true) c d <-> c = (0, 0) /\ d = (1, 0) \/ c = (1, 0) /\ d = (0, 0)).
    { intros [i j] [i' j']. split.
      - intros Hl. pose proof Hl as ([? ?] & [? ?] & _). cbn [fst snd col2 b_rows b_cols] in *. apply link_case in Hl. cbn [fst snd] in Hl. assert (j = 0 /\ j' = 0) as [-> ->] by lia.
        destruct Hl as [[_ [[? _]|[? _]]]|[_ [[-> _]|[-> _]]]]; [lia|lia|left|right]; split; f_equal; lia.
      - intros [[E1 E2]|[E1 E2]]; injection E1 as -> ->; injection E2 as -> ->; (split; [unfold on_board; cbn; lia|]; split; [unfold on_board; cbn; lia|]); [right; right; left|right; right; right]; done. }
    assert (HN : forall c, on_board col2 c -> (c = (0, 0) \/ c = (1, 0)) /\ number col2 c = 1).
    { intros [i j] [Hi Hj]. cbn [fst snd col2 b_rows b_cols] in *. assert (j = 0) as -> by lia. destruct i as [|[|i]]; [split; [by left|done]|split; [by right|done]|lia]. }
    split; [constructor|intros ?; lia].
    + intros c Hc _. destruct (HN c Hc) as [[-> | ->] _]; [exists (1, 0)|exists (0, 0)]; (split; [repeat constructor; apply not_elem_of_nil|]); intros d; rewrite HL, elem_of_list_singleton; naive_solver.
    + intros c Hc Hn. destruct (HN c Hc) as [_ ?]. lia.
    + intros c d Hl. exists c. split; [constructor|]. destruct Hl as [Hc _]. apply HN in Hc as [_ ->]. done.
    + intros c d Hr Hc Hd. destruct Hr as [|c e d Hl Hr]; [done|]. assert (on_board col2 d). { apply rtc_inv_r in Hr as [->|(y & _ & Hy)]; [apply Hl|apply Hy]. }
      destruct (HN c) as [_ ->]; [apply Hl|]. by destruct (HN d) as [_ ->].
Qed.

(** One row: transposing reads the first row of vlink, which has none. *)
Theorem C61_one_row_refuted : forall b, board_ok b -> b_rows b = 1 -> 2 <= b_cols b -> nl_prepare b = None.
Proof.
  intros b Hb Hr Hc. unfold nl_prepare. rewrite (proj2 (Nat.ltb_lt _ _)) by lia. unfold b_read. rewrite Hr. cbn [no_links Nat.sub replicate]. unfold b_transpose.
  rewrite (board_matrix b Hb), transposed_ok by lia. cbn [mbind option_bind]. replace [replicate (b_cols b - 1) false] with (no_links 1 (b_cols b - 1)) by done.
  rewrite no_links_matrix, transposed_ok by lia. done.
Qed.

(** Numbers that do not fit in 8 bits together with the number of columns: the number 254 of a board with two columns is
    not seen. *)
Definition lonely : board := Board 2 2 [[254; 0]; [0; 0]]%Z.
Theorem C61_numbers_refuted : ~ forall (b : board) (v : vec), board_ok b -> 2 <= b_cols b -> vec_ok 2 v ->
  zdd_sem (nl_spec (Numlin b (-1))) (b_rows b * (b_cols b - 1)) v = true -> exists vl, solved b (links_of_vec b v) vl (-1).
Proof.
  intros H. destruct (H lonely (fun _ => 0)) as (vl & [S1 S2 S3 S4] & _).
  - split_and!; [cbn; lia|cbn; lia|done| |].
    + intros i r. destruct i as [|[|i]]; cbn; [intros [= <-]; done|intros [= <-]; done|done].
    + bnum.
  - done.
  - intros ?. lia.
  - vm_compute. reflexivity.
  - assert (on_board lonely (0, 0)) as O0 by (split; cbn; lia). destruct (S1 (0, 0) O0) as (d & _ & Hd); [vm_compute; discriminate|].
    assert (L1 : linked lonely (links_of_vec lonely (fun _ => 0)) vl (0, 0) d) by (apply Hd, elem_of_list_singleton; done).
    assert (forall c e, linked lonely (links_of_vec lonely (fun _ => 0)) vl c e -> snd c = snd e /\ fst c <> fst e) as HV.
    { intros c e Hl. apply link_case in Hl as [[_ [[_ Hx]|[_ Hx]]]|[E [[-> _]|[-> _]]]]; [done|done|split; [done|lia]|split; [done|lia]]. }
    destruct d as [i j]. destruct (HV _ _ L1) as [Hj Hi]. cbn [fst snd] in Hi, Hj. subst j. assert (i = 1) as -> by (destruct L1 as (_ & [? _] & _); cbn [fst lonely b_rows] in *; lia).
    destruct (S2 (1, 0)) as [(d & e & Hnd & Hp)|[_ Hb]]; [apply L1|done| |].
    + assert (forall x, x ∈ [d; e] -> x = (0, 0)) as HA.
      { intros x Hx. apply Hp in Hx. destruct (HV _ _ Hx) as [E1 E2]. destruct x as [x y]. cbn [fst snd] in *. subst y. destruct Hx as (_ & [Hx _] & _). cbn [fst lonely b_rows] in *. f_equal. lia. }
      rewrite (HA d), (HA e) in Hnd by (rewrite !elem_of_cons; auto). apply NoDup_cons in Hnd as [Hnd _]. apply Hnd. left.
    + apply (Hb (0, 0)). destruct L1 as (A & B & C). split; [done|]. split; [done|]. tauto.
Qed.

(** ** a case: the corners of a 2 x 3 board (which is transposed); four lines join them, one of them uses all cells *)
Definition corners : board := Board 2 3 [[1; 0; 0]; [0; 0; 1]]%Z.
Lemma corners_playable k : (k <= 65535)%Z -> playable corners k.
Proof.
  intros Hk. split_and!; [|cbn; lia|cbn; lia| |done].
  - split_and!; [cbn; lia|cbn; lia|done| |].
    + intros i r. destruct i as [|[|i]]; cbn; [intros [= <-]; done|intros [= <-]; done|done].
    + bnum.
  - bnum.
Qed.
Definition run_corners (k : Z) : option (list N) :=
  let quiz := flipped corners in
  d0 ← construct_dd (zdd_lookahead (dz_spec quiz)); d1 ← reduce_seq false true d0;
  d2 ← zdd_subset false d1 (zdd_lookahead (nl_spec (Numlin quiz k))); d3 ← reduce_seq false true d2;
  zdd_cardinality (max_words 2) (fun _ => 0%N) d3.
Lemma run_corners_ok k ds : (k <= 65535)%Z -> run_corners k = Some ds -> exists d, ddnumlin_all corners k d /\ zdd_cardinality (max_words 2) (fun _ => 0%N) d = Some ds.
Proof.
  intros Hk. unfold run_corners. destruct (construct_dd _) as [d0|] eqn:E0; [|done]. cbn [mbind option_bind]. destruct (reduce_seq _ _ d0) as [d1|] eqn:E1; [|done]. cbn [mbind option_bind].
  destruct (zdd_subset _ _ _) as [d2|] eqn:E2; [|done]. cbn [mbind option_bind]. destruct (reduce_seq _ _ d2) as [d3|] eqn:E3; [|done]. cbn [mbind option_bind]. intros E. exists d3. split; [|done].
  destruct (prepared corners k (corners_playable k Hk)) as ((h & v & Ep) & _). cbn [corners b_rows b_cols Nat.ltb Nat.leb] in Ep. fold corners in Ep.
  exists (flipped corners), h, v, true, d0, d1, d2. split; [done|]. split; [by apply con_sequential|]. split; [by apply red_sequential|]. split; [by eapply sub_sequential|by apply red_sequential].
Qed.
Example C61_case :
  (exists d, ddnumlin_all corners (-1) d /\ zdd_cardinality (max_words 2) (fun _ => 0%N) d = Some [4%N]) /\
  (exists d, ddnumlin_all corners 0 d /\ zdd_cardinality (max_words 2) (fun _ => 0%N) d = Some [1%N]) /\
  drawing corners 0 [[false; true]; [true; false]] [[true; true; true]] /\
  fits (flipped corners) 0 /\ board_ok (flipped corners) /\ 2 <= b_cols (flipped corners).
Proof.
  split; [apply run_corners_ok; [lia|vm_compute; reflexivity]|]. split; [apply run_corners_ok; [lia|vm_compute; reflexivity]|].
  destruct (prepared corners 0 (corners_playable 0 ltac:(lia))) as (_ & Hqb & _ & Hqc & Hqf). cbn [corners b_rows b_cols Nat.ltb Nat.leb] in Hqb, Hqc, Hqf. fold corners in Hqb, Hqc, Hqf.
  split; [|done]. pose proof (ans_sound corners 0 (corners_playable 0 ltac:(lia)) (vec_of_list [1;1;1])) as HS.
  change (ansf corners (vec_of_list [1;1;1])) with ([[false; true]; [true; false]], [[true; true; true]]) in HS. apply HS.
  apply (C61_numlin (flipped corners) 0 (vec_of_list [1;1;1]) Hqb Hqc Hqf). vm_compute. reflexivity.
Qed.

Print Assumptions C61_numlin.
Print Assumptions C61_vertical.
Print Assumptions C61_degree.
Print Assumptions C61_memory_safe.
Print Assumptions C61_contract.
Print Assumptions C61_program.
Print Assumptions C61_drawing.
Print Assumptions C61_one_column_refuted.
Print Assumptions C61_one_row_refuted.
Print Assumptions C61_numbers_refuted.
Print Assumptions C61_case.
