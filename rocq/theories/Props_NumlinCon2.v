(** C61: exactly the solutions that the Numberlink program without -a finds. *)
From Verif Require Import Base Sem Ex M_Table Tree M_Engine M_Builder M_Reducer M_Subset M_Eval S_Eval S_Big M_Ops M_Conv Props_Reduce M_Equal S_Api P_Api Props_Api P_Bridge3
  M_Numlin M_NumlinProg M_NumlinCon S_Numlin S_NumlinCon P_Numlin2 P_Numlin3 P_Numlin4 P_Numlin5 P_Numlin6 P_Numlin7 Props_Numlin Props_NumlinCon P_NumlinCon.
Local Open Scope nat_scope.

(** ConstraintZdd keeps exactly the tidy solutions. *)
Theorem C61_constraint : forall (b : board) (v : vec) (vl : nat -> nat -> bool), board_ok b -> 2 <= b_cols b -> solution b (links_of_vec b v) vl ->
  zdd_sem (cz_spec b) (b_rows b * (b_cols b - 1)) v = true <-> tidy b (links_of_vec b v) vl.
Proof. intros b v vl Hb Hn HS. rewrite (cz_sem b Hb Hn v). by apply tidy_iff. Qed.

(** Boards with more columns than rows are mirrored at the diagonal before they are solved. *)
Definition neat (b : board) (h v : list (list bool)) : Prop :=
  if b_rows b <? b_cols b then tidy (flipped b) (fun i j => cell v j i) (fun i j => cell h j i) else tidy b (cell h) (cell v).

Lemma blank_ext b hl vl hl' vl' c : (forall i j, i < b_rows b -> S j < b_cols b -> hl i j = hl' i j) -> (forall i j, S i < b_rows b -> j < b_cols b -> vl i j = vl' i j) ->
  blank b hl vl c -> blank b hl' vl' c.
Proof.
  intros Hh Hv [H1 H2]. split; [done|]. intros d Hd. apply (H2 d). destruct Hd as (O1 & O2 & HX). split; [done|]. split; [done|]. destruct c as [i j], d as [i' j']. unfold on_board, right_of, below in *. cbn [fst snd] in *.
  destruct HX as [[E Hx]|[[E Hx]|[[E Hx]|[E Hx]]]]; injection E as -> ->.
  - left. split; [done|]. rewrite Hh by lia. done.
  - right; left. split; [done|]. rewrite Hh by lia. done.
  - right; right; left. split; [done|]. rewrite Hv by lia. done.
  - right; right; right. split; [done|]. rewrite Hv by lia. done.
Qed.
Lemma tidy_ext b hl vl hl' vl' : (forall i j, i < b_rows b -> S j < b_cols b -> hl i j = hl' i j) -> (forall i j, S i < b_rows b -> j < b_cols b -> vl i j = vl' i j) ->
  tidy b hl vl -> tidy b hl' vl'.
Proof.
  intros Hh Hv [T1 T2 T3 T4]. constructor.
  - intros i j Hi Hj. rewrite <- !Hh, <- !Hv by lia. by apply T1.
  - intros i j Hi Hj E1 E2 HB. rewrite <- Hh in E1 by lia. rewrite <- Hv in E2 by lia. apply (T2 i j Hi Hj E1 E2). eapply blank_ext; [| |exact HB]; intros; symmetry; auto.
  - intros i j Hi Hj E1 E2 HB. rewrite <- Hh in E1 by lia. rewrite <- Hv in E2 by lia. apply (T3 i j Hi Hj E1 E2). eapply blank_ext; [| |exact HB]; intros; symmetry; auto.
  - intros i j k Hi Hjk Hk E1 E2 HA [HB HC]. rewrite <- Hv in E1, E2 by lia. apply (T4 i j k Hi Hjk Hk E1 E2).
    + intros c Hc. rewrite Hh by lia. by apply HA.
    + split; [|done]. intros c Hc. rewrite Hh by lia. by apply HB.
Qed.
Lemma neat_ans b k set vl : playable b k -> let quiz := if b_rows b <? b_cols b then flipped b else b in solved quiz (links_of_vec quiz set) vl k ->
  tidy quiz (links_of_vec quiz set) vl <-> neat b (fst (ansf b set)) (snd (ansf b set)).
Proof.
  intros HP quiz Hsol. destruct (prepared b k HP) as (_ & Hqb & Hqr & Hqc & Hqf). fold quiz in Hqb, Hqr, Hqc, Hqf.
  assert (forall i j, S i < b_rows quiz -> j < b_cols quiz -> vl i j = vdn quiz (links_of_vec quiz set) i j) as HV. { apply vdn_of; [done|done|]. apply sol_degrees, Hsol. }
  assert (tidy quiz (links_of_vec quiz set) vl <-> tidy quiz (links_of_vec quiz set) (vdn quiz (links_of_vec quiz set))) as -> by (split; apply tidy_ext; try done; intros; symmetry; auto).
  clear Hsol HV. unfold neat, ansf. subst quiz. destruct (b_rows b <? b_cols b); cbn [fst snd].
  - split; apply tidy_ext; cbn [flipped b_rows b_cols]; intros i j Hi Hj; by rewrite cell_matrix by lia.
  - split; apply tidy_ext; intros i j Hi Hj; by rewrite cell_matrix by lia.
Qed.

(** ddnumlin without -a: zddCardinality prints the number of solutions that are neat, and each of them, and no other, is drawn for some set of the
    diagram. *)
Theorem C61_short_exact : forall (b : board) (k : Z) d, playable b k -> ddnumlin_short b k d ->
  (forall junk, exists ds (A : list (list (list bool) * list (list bool))),
    zdd_cardinality (max_words 2) junk d = Some ds /\ decimal ds (N.of_nat (length A)) /\ NoDup A /\ forall h v, (h, v) ∈ A <-> drawing b k h v /\ neat b h v) /\
  exists quiz h0 v0 transposed, nl_prepare b = Some ((quiz, h0, v0), transposed) /\
    let family v := vec_ok 2 v /\ zdd_sem (dd_spec d) (b_rows quiz * (b_cols quiz - 1)) v = true in
    (forall set, family set -> exists h v, nl_answer quiz transposed set = Some (b, h, v) /\ drawing b k h v /\ neat b h v) /\
    (forall h v, drawing b k h v -> neat b h v -> exists set, family set /\ nl_answer quiz transposed set = Some (b, h, v)).
Proof.
  intros b k d HP Hd. destruct (prepared b k HP) as ((h0 & v0 & Ep) & Hqb & Hqr & Hqc & Hqf). set (quiz := if b_rows b <? b_cols b then flipped b else b) in *.
  destruct (short_program_api b k d HP Hd) as (P & HD & HM). fold quiz in HD, HM.
  assert (forall set, P set = true <-> (exists vl, solved quiz (links_of_vec quiz set) vl k) /\ neat b (fst (ansf b set)) (snd (ansf b set))) as HM'.
  { intros set. rewrite HM. split.
    - intros [H1 (vl & H2)]. split; [by exists vl|]. apply (neat_ans b k set vl HP H2). by apply (C61_constraint quiz set vl Hqb Hqc (proj1 H2)).
    - intros [(vl & H2) H1]. split; [|by exists vl]. apply (C61_constraint quiz set vl Hqb Hqc (proj1 H2)). by apply (neat_ans b k set vl HP H2). }
  split.
  - intros junk. destruct (C54_count 2 _ d P junk ltac:(lia) HD) as (ds & N & E & HN & L & H1 & -> & H3).
    exists ds, (map (fun l => ansf b (vec_of_list l)) L). rewrite map_length. split; [done|]. split; [done|]. split.
    + apply NoDup_fmap_2_strong; [|done]. intros l l' Hl Hl' Eq. apply H3 in Hl as (Q1 & Q2 & _). apply H3 in Hl' as (Q1' & Q2' & _). by apply (ans_inj b k HP).
    + intros h v. split.
      * intros Hin. apply elem_of_list_fmap in Hin as (l & El & Hl). apply H3 in Hl as (Q1 & Q2 & Q3). apply HM' in Q3 as [Q3 Q4]. pose proof (ans_sound b k HP _ Q3) as HS. rewrite <- El in HS, Q4. done.
      * intros [HS HN']. destruct (ans_complete b k HP h v HS) as (l & Q1 & Q2 & Q3 & Q4). apply elem_of_list_fmap. exists l. split; [done|]. apply H3. split; [done|]. split; [done|]. apply HM'. split; [done|]. by rewrite Q4.
  - exists quiz, h0, v0, (b_rows b <? b_cols b). split; [done|]. destruct (C54_meaning 2 _ AZdd d P ltac:(lia) HD) as (_ & _ & _ & HS). cbn [means] in HS. cbv zeta. split.
    + intros set [Hv Hz]. rewrite HS in Hz by done. apply HM' in Hz as [Hz HN]. eexists _, _. split; [by apply (ans_eq b k)|]. split; [by apply ans_sound|done].
    + intros h v HDr HN. destruct (ans_complete b k HP h v HDr) as (l & Q1 & Q2 & Q3 & Q4). exists (vec_of_list l).
      assert (vec_ok 2 (vec_of_list l)) as Hv.
      { intros i. unfold vec_of_list. destruct (le_lt_dec (length l) (i - 1)) as [Hi|Hi]; [rewrite nth_overflow by done; lia|]. rewrite Forall_forall in Q2. apply Q2, elem_of_list_In, nth_In. done. }
      split; [split; [done|]; rewrite HS by done; apply HM'; split; [done|by rewrite Q4]|]. pose proof (ans_eq b k HP (vec_of_list l)) as EA. rewrite Q4 in EA. exact EA.
Qed.

(** The corners of a 2 x 3 board again: the line down and then to the right is neat, the snake is not. *)
Example C61_exact_case : drawing corners (-1) [[false; false]; [true; true]] [[true; false; false]] /\ neat corners [[false; false]; [true; true]] [[true; false; false]] /\
  drawing corners 0 [[false; true]; [true; false]] [[true; true; true]] /\ ~ neat corners [[false; true]; [true; false]] [[true; true; true]].
Proof.
  assert (playable corners (-1)) as HP by (apply corners_playable; lia). destruct (prepared corners (-1) HP) as (_ & Hqb & _ & Hqc & Hqf). cbn [corners b_rows b_cols Nat.ltb Nat.leb] in Hqb, Hqc, Hqf. fold corners in Hqb, Hqc, Hqf.
  assert (exists vl, solved (flipped corners) (links_of_vec (flipped corners) (vec_of_list [0; 0; 1])) vl (-1)) as HV by (apply (C61_numlin (flipped corners) (-1) (vec_of_list [0; 0; 1]) Hqb Hqc Hqf); vm_compute; reflexivity).
  assert (ansf corners (vec_of_list [0; 0; 1]) = ([[false; false]; [true; true]], [[true; false; false]])) as EA by (vm_compute; reflexivity).
  split; [|split; [|split]].
  - pose proof (ans_sound corners (-1) HP (vec_of_list [0; 0; 1]) HV) as HS. by rewrite EA in HS.
  - destruct HV as (vl & HV). pose proof (neat_ans corners (-1) (vec_of_list [0; 0; 1]) vl HP HV) as HN. rewrite EA in HN. apply HN.
    apply (C61_constraint (flipped corners) _ vl Hqb Hqc (proj1 HV)). vm_compute. reflexivity.
  - apply C61_case.
  - intros [T _ _ _]. specialize (T 0 0). cbn in T. lia.
Qed.

Print Assumptions C61_constraint.
Print Assumptions C61_short_exact.
Print Assumptions C61_exact_case.
