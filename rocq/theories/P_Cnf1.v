(** Reading and sorting clauses. *)
From stdpp Require Import sorting.
From Verif Require Import Base Sem M_Cnf S_Cnf.
Local Open Scope Z_scope.

Section srt.
  Context {A : Type} (before : A -> A -> bool) (eq : A -> A -> bool) (Heq : forall a b, eq a b = true <-> a = b).
  Definition ordr (a b : A) : Prop := before b a = false.
  Context (Htr : Transitive ordr) (Hto : Total ordr).
  Lemma std_sort_sorted l : StronglySorted ordr (std_sort before l).
  Proof. unfold std_sort. apply StronglySorted_merge_sort; done. Qed.
  Lemma std_sort_perm l : std_sort before l ≡ₚ l.
  Proof. apply merge_sort_Permutation. Qed.
  Lemma std_unique_elem l x : x ∈ std_unique eq l <-> x ∈ l.
  Proof.
    induction l as [|a l IH]; [done|]. cbn [std_unique]. destruct l as [|b l]; [done|]. destruct (eq a b) eqn:E.
    - apply Heq in E as ->. rewrite IH. rewrite !elem_of_cons. naive_solver.
    - rewrite (elem_of_cons _ x a), (elem_of_cons (b :: l) x a). by rewrite IH.
  Qed.
  Lemma std_unique_sorted (P : A -> Prop) l : (forall a b, P a -> P b -> before a b = false -> before b a = false -> a = b) ->
    Forall P l -> StronglySorted ordr l -> StronglySorted (fun a b => before a b = true) (std_unique eq l).
  Proof.
    intros HA. induction l as [|a l IH]; intros HP HS; [constructor|]. cbn [std_unique]. destruct l as [|b l]; [repeat constructor|].
    inversion HP as [|? ? Pa HP']; subst. inversion HS as [|? ? HS' HF]; subst. specialize (IH HP' HS'). destruct (eq a b) eqn:E; [done|].
    constructor; [done|]. apply Forall_forall. intros y Hy. rewrite std_unique_elem in Hy. destruct (before a y) eqn:Ey; [done|]. exfalso.
    rewrite Forall_forall in HF, HP'. assert (y = a) as ->. { apply HA.
      - by apply HP'.
      - done.
      - by apply (HF y).
      - done. }
    inversion HS' as [|? ? _ HFb]; subst. rewrite Forall_forall in HFb.
    assert (a = b) as Hab.
    { apply elem_of_cons in Hy as [->|Hy]; [done|]. apply HA; [done|apply HP'; left| |]; [by apply (HFb a)|]. apply (HF b). left. }
    apply Heq in Hab. congruence.
  Qed.
End srt.

Lemma ssorted_impl {A} (R R' : A -> A -> Prop) l : (forall a b, R a b -> R' a b) -> StronglySorted R l -> StronglySorted R' l.
Proof. intros H. induction 1 as [|a l HS IH HF]; constructor; [done|]. eapply Forall_impl; [exact HF|]. intros b. apply H. Qed.

(** ** literals *)
Lemma var_trans : Transitive (ordr var_cmp).
Proof. intros a b c. unfold ordr, var_cmp. rewrite !Z.ltb_ge. lia. Qed.
Lemma var_total : Total (ordr var_cmp).
Proof. intros a b. unfold ordr, var_cmp. rewrite !Z.ltb_ge. lia. Qed.
Lemma taut_spec c : tautological c = true <-> tautology c.
Proof.
  unfold tautological, tautology. rewrite existsb_exists. split.
  - intros (x & Hx & H). apply existsb_exists in H as (y & Hy & E). apply Z.eqb_eq in E. exists x. rewrite !elem_of_list_In. split; [done|]. by replace (- x) with y by lia.
  - intros (x & Hx & Hy). exists x. rewrite <- elem_of_list_In. split; [done|]. apply existsb_exists. exists (- x). rewrite <- elem_of_list_In. split; [done|]. apply Z.eqb_eq. lia.
Qed.
(** a clause as the code keeps it *)
Definition canon (nv : nat) (c : clause) : Prop := Forall (fun x => x <> 0 /\ Z.abs x <= Z.of_nat nv) c /\ StronglySorted (fun a b => Z.abs a < Z.abs b) c.
Definition canonize (c : clause) : clause := std_unique Z.eqb (std_sort var_cmp c).
Lemma canonize_elem c x : x ∈ canonize c <-> x ∈ c.
Proof. unfold canonize. rewrite (std_unique_elem Z.eqb Z.eqb_eq). by rewrite (std_sort_perm var_cmp). Qed.
Lemma canonize_ok nv c : Forall (fun x => x <> 0 /\ Z.abs x <= Z.of_nat nv) c -> ~ tautology c -> canon nv (canonize c).
Proof.
  intros HF HT. split.
  - rewrite Forall_forall in *. intros x Hx. by apply HF, canonize_elem.
  - eapply ssorted_impl; [|apply (std_unique_sorted var_cmp Z.eqb Z.eqb_eq (fun x => x ∈ c))].
    + intros a b. unfold var_cmp. by rewrite Z.ltb_lt.
    + intros a b Ha Hb. unfold var_cmp. rewrite !Z.ltb_ge. intros. destruct (Z.eq_dec a b) as [|Hn]; [done|]. exfalso. apply HT. exists a. split; [done|]. by replace (- a) with b by lia.
    + apply Forall_forall. intros x. by rewrite (std_sort_perm var_cmp).
    + apply std_sort_sorted; [apply var_trans|apply var_total].
Qed.
Lemma canon_cons nv x c : canon nv (x :: c) <-> (x <> 0 /\ Z.abs x <= Z.of_nat nv) /\ canon nv c /\ Forall (fun y => Z.abs x < Z.abs y) c.
Proof.
  unfold canon. rewrite Forall_cons. split.
  - intros [[H1 H2] H3]. inversion H3; subst. done.
  - intros (H1 & [H2 H3] & H4). split; [done|]. by constructor.
Qed.
Lemma canon_eq nv c d : canon nv c -> canon nv d -> same_literals c d -> c = d.
Proof.
  revert d. induction c as [|x c IH]; intros [|y d] Hc Hd Hs.
  - done.
  - exfalso. specialize (Hs y). rewrite elem_of_nil in Hs. apply Hs. left.
  - exfalso. specialize (Hs x). rewrite elem_of_nil in Hs. apply Hs. left.
  - apply canon_cons in Hc as (X1 & Hc & X2), Hd as (Y1 & Hd & Y2). rewrite Forall_forall in X2, Y2.
    assert (x = y) as ->.
    { assert (x ∈ y :: d) as H1 by (apply Hs; left). assert (y ∈ x :: c) as H2 by (apply Hs; left).
      apply elem_of_cons in H1 as [->|H1]; [done|]. apply elem_of_cons in H2 as [->|H2]; [done|]. apply Y2 in H1. apply X2 in H2. lia. }
    f_equal. apply IH; [done|done|]. intros z. specialize (Hs z). rewrite !elem_of_cons in Hs. split; intros Hz.
    + destruct (proj1 Hs (or_intror Hz)) as [->|]; [|done]. apply X2 in Hz. lia.
    + destruct (proj2 Hs (or_intror Hz)) as [->|]; [|done]. apply Y2 in Hz. lia.
Qed.

(** ** clauses *)
Local Ltac cc := repeat match goal with
  | |- context [Z.eqb ?a ?b] => destruct (Z.eqb_spec a b)
  | |- context [Z.ltb ?a ?b] => destruct (Z.ltb_spec a b)
  end; cbn [negb]; try (intros; try discriminate; try reflexivity; lia).
Lemma clause_trans : Transitive (ordr clause_cmp).
Proof.
  unfold ordr. intros a. induction a as [|x a IH]; intros [|y b] [|z c]; cbn [clause_cmp length Nat.ltb Nat.leb]; try done.
  specialize (IH b c). cc; auto.
Qed.
Lemma clause_total : Total (ordr clause_cmp).
Proof.
  unfold ordr. intros a. induction a as [|x a IH]; intros [|y b]; cbn [clause_cmp length Nat.ltb Nat.leb]; auto.
  specialize (IH b). cc; auto; try (left; reflexivity); try (right; reflexivity); lia.
Qed.
Lemma clause_antisym a b : Forall (fun x => x <> 0) a -> Forall (fun x => x <> 0) b -> clause_cmp a b = false -> clause_cmp b a = false -> a = b.
Proof.
  revert b. induction a as [|x a IH]; intros [|y b]; cbn [clause_cmp length Nat.ltb Nat.leb]; try done. intros HA HB. apply Forall_cons in HA as [Hx HA], HB as [Hy HB].
  specialize (IH b HA HB). cc. intros H1 H2. f_equal; [lia|auto].
Qed.
Definition clt (a b : clause) : Prop := clause_cmp a b = true.
Lemma sort_clauses_elem cnf c : c ∈ sort_clauses cnf <-> c ∈ cnf.
Proof. unfold sort_clauses. rewrite std_unique_elem; [by rewrite (std_sort_perm clause_cmp)|]. intros a b. apply bool_decide_eq_true. Qed.
Lemma sort_clauses_sorted nv cnf : Forall (canon nv) cnf -> StronglySorted clt (sort_clauses cnf) /\ Forall (canon nv) (sort_clauses cnf).
Proof.
  intros HF. split; [|rewrite Forall_forall in *; intros c Hc; by apply HF, sort_clauses_elem].
  apply (std_unique_sorted clause_cmp _ (fun a b => bool_decide_eq_true (a = b)) (fun c => Forall (fun x => x <> 0) c)).
  - apply clause_antisym.
  - rewrite Forall_forall in *. intros c Hc. rewrite (std_sort_perm clause_cmp) in Hc. destruct (HF c Hc) as [H _]. eapply Forall_impl; [exact H|]. intros x Hx. apply Hx.
  - apply std_sort_sorted; [apply clause_trans|apply clause_total].
Qed.

(** ** readDimacs *)
Section rd.
  Context (nv nc : nat).
  Definition in_range (C : clause) : Prop := Forall (fun x => Z.abs x <= Z.of_nat nv) C.
  Definition keep (C : clause) : bool := match C with [] => false | _ => negb (tautological C) end.
  (** the clauses that are kept *)
  Definition kept (Cs : list clause) : list clause := flat_map (fun C => if keep C then [canonize C] else []) Cs.
  Definition nonempty (C : clause) : nat := match C with [] => 0 | _ => 1 end.
  Definition count_ne (Cs : list clause) : nat := sum_list_with nonempty Cs.
  Lemma read_lits C c cnf mm : Forall (fun x => x <> 0) C ->
    ofold (read_literal nv nc) C (c, cnf, mm) = if bool_decide (in_range C /\ (C = [] \/ (mm < nc)%nat)) then Some (c ++ C, cnf, mm) else None.
  Proof.
    revert c. induction C as [|x C IH]; intros c HF; cbn [ofold].
    - rewrite bool_decide_eq_true_2; [by rewrite app_nil_r|]. split; [constructor|by left].
    - apply Forall_cons in HF as [Hx HF]. unfold read_literal at 1. destruct (Z.eqb_spec x 0) as [|_]; [done|]. unfold in_range in *. destruct (Z.ltb_spec (Z.of_nat nv) (Z.abs x)) as [Hl|Hl].
      + rewrite bool_decide_eq_false_2; [done|]. rewrite Forall_cons. intros [[? _] _]. lia.
      + destruct (Nat.leb_spec nc mm) as [Hm|Hm].
        * rewrite bool_decide_eq_false_2; [done|]. intros [_ [?|?]]; [done|lia].
        * rewrite IH by done. rewrite <- app_assoc. cbn [app]. erewrite bool_decide_ext; [done|]. rewrite Forall_cons. split; [intros [? _]; split; [done|by right]|intros [[_ ?] _]; split; [done|by right]].
  Qed.
  Lemma read_zero c cnf mm : read_literal nv nc (c, cnf, mm) 0 = Some ([], cnf ++ (if keep c then [canonize c] else []), (mm + nonempty c)%nat).
  Proof.
    unfold read_literal. rewrite Z.eqb_refl. destruct c as [|x c]; [by rewrite app_nil_r, Nat.add_0_r|]. cbn [nonempty keep]. rewrite Nat.add_1_r. destruct (tautological _); cbn [negb]; [by rewrite app_nil_r|done].
  Qed.
  Lemma read_written Cs cnf mm : Forall (Forall (fun x => x <> 0)) Cs -> (mm <= nc)%nat ->
    ofold (read_literal nv nc) (written Cs) ([], cnf, mm) =
      if bool_decide (Forall in_range Cs /\ (mm + count_ne Cs <= nc)%nat) then Some ([], cnf ++ kept Cs, (mm + count_ne Cs)%nat) else None.
  Proof.
    revert cnf mm. induction Cs as [|C Cs IH]; intros cnf mm HF Hm; cbn [written flat_map].
    - cbn [ofold]. change (count_ne []) with 0%nat. rewrite bool_decide_eq_true_2 by (split; [constructor|lia]). change (kept []) with (@nil clause). by rewrite app_nil_r, Nat.add_0_r.
    - apply Forall_cons in HF as [HC HF]. rewrite <- app_assoc, ofold_app, read_lits by done. change (count_ne (C :: Cs)) with (nonempty C + count_ne Cs)%nat. change (kept (C :: Cs)) with ((if keep C then [canonize C] else []) ++ kept Cs).
      destruct (bool_decide_reflect (in_range C /\ (C = [] \/ (mm < nc)%nat))) as [[H1 H2]|Hn].
      + change (flat_map _ Cs) with (written Cs). cbn [app ofold]. rewrite read_zero.
        assert ((mm + nonempty C <= nc)%nat) as Hm' by (destruct C; cbn [nonempty]; [lia|destruct H2; [done|lia]]).
        rewrite IH by done. rewrite <- app_assoc, <- Nat.add_assoc. erewrite bool_decide_ext; [done|]. rewrite Forall_cons. tauto.
      + rewrite bool_decide_eq_false_2; [done|]. rewrite Forall_cons. intros [[H1 _] H2]. apply Hn. split; [done|]. destruct C; [by left|]. right. cbn [nonempty] in H2. lia.
  Qed.
  Lemma read_dimacs_ok Cs numbers : (1 <= nv)%nat -> (1 <= nc)%nat -> dimacs Cs numbers ->
    read_dimacs nv nc numbers 0 = if bool_decide (Forall in_range Cs /\ count_ne Cs = nc) then Some (kept Cs) else None.
  Proof.
    intros Hv Hc [HF Hd]. assert (exists Cs', numbers ++ [0] = written Cs' /\ Forall (Forall (fun x => x <> 0)) Cs' /\ (Forall in_range Cs' <-> Forall in_range Cs) /\ count_ne Cs' = count_ne Cs /\ kept Cs' = kept Cs)
      as (Cs' & E & HF' & H1 & H2 & H3).
    { destruct Hd as [->|E]; [|by exists Cs]. exists (Cs ++ [[]]). unfold written, kept, count_ne. rewrite !flat_map_app. cbn [flat_map app keep]. rewrite app_nil_r. split; [done|]. split; [apply Forall_app; split; [done|repeat constructor]|].
      split; [|split; [|done]].
      - rewrite Forall_app. split; [tauto|]. intros ?. split; [done|]. repeat constructor.
      - rewrite sum_list_with_app. cbn. lia. }
    unfold read_dimacs. rewrite (proj2 (Nat.ltb_ge nv 1)), (proj2 (Nat.ltb_ge nc 1)) by done. cbn [orb]. rewrite E, read_written by (done || lia). cbn [app Nat.add]. rewrite H2, H3.
    destruct (bool_decide_reflect (Forall in_range Cs' /\ (count_ne Cs <= nc)%nat)) as [[A B]|Hn]; cbn [mbind option_bind].
    - destruct (Nat.ltb_spec (count_ne Cs) nc).
      + rewrite bool_decide_eq_false_2; [done|]. lia.
      + rewrite bool_decide_eq_true_2; [done|]. split; [by apply H1|lia].
    - rewrite bool_decide_eq_false_2; [done|]. intros [A B]. apply Hn. split; [by apply H1|lia].
  Qed.
  Lemma keep_proper C : keep C = true <-> proper C.
  Proof.
    unfold proper, keep. destruct C as [|x C]; [split; [done|intros [H _]; done]|]. rewrite negb_true_iff. rewrite <- taut_spec. destruct (tautological _); split; try done. intros [_ H]. by destruct H.
  Qed.
  Lemma kept_elem Cs c : c ∈ kept Cs <-> exists D, D ∈ Cs /\ proper D /\ c = canonize D.
  Proof.
    unfold kept. rewrite elem_of_list_In, in_flat_map. split.
    - intros (D & HD & H). exists D. rewrite elem_of_list_In. split; [done|]. rewrite <- keep_proper. destruct (keep D); [|by destruct H]. destruct H as [<-|[]]. done.
    - intros (D & HD & HP & ->). exists D. rewrite <- elem_of_list_In. split; [done|]. rewrite (proj2 (keep_proper D) HP). by left.
  Qed.
  Lemma kept_canon Cs : Forall (Forall (fun x => x <> 0)) Cs -> Forall in_range Cs -> Forall (canon nv) (kept Cs).
  Proof.
    rewrite !Forall_forall. intros H1 H2 c Hc. apply kept_elem in Hc as (D & HD & [_ HP] & ->). apply canonize_ok; [|done]. apply Forall_and. split; [by apply H1|by apply H2].
  Qed.
End rd.
