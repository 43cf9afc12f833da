(** C63: cnfbdd -c computes the BDD of a CNF, with and without reachability analysis. *)
From stdpp Require Import gmap sorting.
From Verif Require Import Base Sem Ex M_Table Tree M_Engine M_Builder M_Reducer M_Subset M_Eval S_Eval S_Big M_Ops M_Conv M_Iter Props_Eval Props_Iter Props_Reduce M_Equal S_Api P_Api Props_Api
  M_Cnf S_Cnf P_Cnf1 Props_Cnf M_CnfBdd P_CnfBdd Sem.
Local Open Scope Z_scope.

(** the truth values that a vector of 0 and 1 gives to the variables *)
Definition values (nv : nat) (w : vec) (x : Z) : bool := negb (w (level_of nv x) =? 0)%nat.
(** an assignment satisfies the clauses of the input that are not empty *)
Definition models (Cs : list (list Z)) (val : Z -> bool) : Prop := forall C, C ∈ Cs -> C <> [] -> satisfies val C.

Local Ltac cc := repeat match goal with
  | |- context [Z.eqb ?a ?b] => destruct (Z.eqb_spec a b)
  | |- context [Z.ltb ?a ?b] => destruct (Z.ltb_spec a b)
  end; cbn [negb]; try (intros; try discriminate; try reflexivity; lia).
Lemma ordering_trans : Transitive (ordr ordering_cmp).
Proof.
  unfold ordr. intros a. induction a as [|x a IH]; intros [|y b] [|z c]; cbn [ordering_cmp length Nat.ltb Nat.leb]; try done.
  specialize (IH b c). cc; auto.
Qed.
Lemma ordering_total : Total (ordr ordering_cmp).
Proof.
  unfold ordr. intros a. induction a as [|x a IH]; intros [|y b]; cbn [ordering_cmp length Nat.ltb Nat.leb]; auto.
  specialize (IH b). cc; auto; try (left; reflexivity); try (right; reflexivity); lia.
Qed.
Lemma unique_length {A} (eq : A -> A -> bool) l : (length (std_unique eq l) <= length l)%nat.
Proof. induction l as [|a l IH]; [done|]. cbn [std_unique]. destruct l as [|b l]; [done|]. destruct (eq a b); cbn [length] in *; lia. Qed.
Lemma kept_length Cs : (length (kept Cs) <= count_ne Cs)%nat.
Proof. induction Cs as [|C Cs IH]; [done|]. change (kept (C :: Cs)) with ((if keep C then [canonize C] else []) ++ kept Cs). change (count_ne (C :: Cs)) with (nonempty C + count_ne Cs)%nat. rewrite app_length. destruct C; cbn [keep nonempty length]; [lia|]. destruct (negb _); cbn [length]; lia. Qed.

Section loaded.
  Context (sort : bool) (nv nc : nat) (Cs : list (list Z)) (numbers : list Z) (HD : dimacs Cs numbers).
  Lemma cb_load_iff : (exists cnf, cb_load sort nv nc numbers 0 cnf) <-> announced nv nc Cs.
  Proof.
    rewrite announced_alt. unfold cb_load. split.
    - intros (cnf & cnf0 & H & _). destruct (decide (1 <= nv /\ 1 <= nc)%nat) as [[H1 H2]|Hn].
      + rewrite (read_dimacs_ok nv nc Cs) in H by done. case_bool_decide; [tauto|done].
      + unfold read_dimacs in H. destruct (Nat.ltb_spec nv 1), (Nat.ltb_spec nc 1); cbn [orb] in H; try done. lia.
    - intros (H1 & H2 & H3). destruct sort.
      + eexists _, (kept Cs). split; [by rewrite (read_dimacs_ok nv nc Cs), bool_decide_eq_true_2|]. exists (std_sort ordering_cmp (kept Cs)). split; [apply std_sort_perm|]. split; [apply (std_sort_sorted _ ordering_trans ordering_total)|done].
      + exists (kept Cs), (kept Cs). split; [by rewrite (read_dimacs_ok nv nc Cs), bool_decide_eq_true_2|done].
  Qed.
  Lemma cb_load_elem cnf : cb_load sort nv nc numbers 0 cnf -> announced nv nc Cs /\ (forall c, c ∈ cnf <-> c ∈ kept Cs) /\ (length cnf <= nc)%nat.
  Proof.
    intros HL. assert (announced nv nc Cs) as HA by (apply cb_load_iff; by exists cnf). split; [done|]. apply announced_alt in HA as (H1 & H2 & H3 & H4). destruct HL as (cnf0 & E & HS).
    rewrite (read_dimacs_ok nv nc Cs), bool_decide_eq_true_2 in E by done. injection E as <-. pose proof (kept_length Cs) as Hk. rewrite H4 in Hk. destruct sort; [|by subst cnf].
    destruct HS as (p & Hp & _ & ->). split.
    - intros c. rewrite std_unique_elem; [|intros a b; apply bool_decide_eq_true]. by rewrite Hp.
    - etransitivity; [apply unique_length|]. by rewrite (Permutation_length Hp).
  Qed.
  Context (cnf : list (list Z)) (HL : cb_load sort nv nc numbers 0 cnf) (Hnc : Z.of_nat nc <= 65535).
  Lemma cb_canon : Forall (fun c => canon nv c /\ c <> []) cnf.
  Proof.
    destruct (cb_load_elem cnf HL) as (HA & HE & _). apply announced_alt in HA as (_ & _ & HR & _). pose proof HD as [H0 _]. pose proof (kept_canon nv Cs H0 HR) as HK. rewrite Forall_forall in HK. apply Forall_forall. intros c Hc. apply HE in Hc. split; [by apply HK|].
    apply kept_elem in Hc as (D & HDs & [Hne _] & ->). destruct D as [|x D]; [done|]. intros E. assert (x ∈ canonize (x :: D)) as Hx by (apply canonize_elem; left). rewrite E in Hx. by apply elem_of_nil in Hx.
  Qed.
  Lemma cb_small : Z.of_nat (length cnf) <= 65535.
  Proof. destruct (cb_load_elem cnf HL) as (_ & _ & H). lia. Qed.
  Lemma lit_true_values w x : x <> 0 -> lit_true nv w x <-> 0 < x /\ values nv w x = true \/ x < 0 /\ values nv w (- x) = false.
  Proof.
    intros Hx. unfold lit_true, values, lit_level, level_of. destruct (Z.ltb_spec 0 x).
    - rewrite Z.abs_eq by lia. destruct (Nat.eqb_spec (w (Z.to_nat (Z.of_nat nv - x + 1))) 0) as [E|E]; cbn [negb].
      + split; [done|]. intros [[_ ?]|[? _]]; [done|lia].
      + split; [by left|done].
    - rewrite Z.abs_neq by lia. destruct (Nat.eqb_spec (w (Z.to_nat (Z.of_nat nv - - x + 1))) 0) as [E|E]; cbn [negb].
      + split; [|done]. intros _. right. split; [lia|done].
      + split; [done|]. intros [[? _]|[_ ?]]; [lia|done].
  Qed.
  Context (T : Z -> cdd).
  Lemma cb_family m w : diagrams nv cnf m T -> inside nv cnf T -> vec_ok 2 w -> bdd_sem (cb_spec nv cnf T) nv w = true <-> models Cs (values nv w).
  Proof.
    intros HT Hin Hw. destruct (cb_load_elem cnf HL) as (HA & HE & _). rewrite (cb_sem_ok nv cnf cb_canon cb_small T m w); [|by apply HA|done..]. pose proof HD as [H0 _]. rewrite Forall_forall in H0. unfold models. split.
    - intros H C HC Hne. assert (Forall (fun x => x <> 0) C) as HC0 by (by apply H0). destruct (tautological C) eqn:Et; [apply P_Cnf4.taut_satisfied; [done|by apply taut_spec]|].
      assert (canonize C ∈ cnf) as Hc. { apply HE, kept_elem. exists C. split; [done|]. split; [|done]. split; [done|]. rewrite <- taut_spec. congruence. }
      destruct (H _ Hc) as (x & Hx & Ht). rewrite canonize_elem in Hx. exists x. split; [done|]. rewrite Forall_forall in HC0. apply (proj1 (lit_true_values w x (HC0 x Hx))). done.
    - intros H c Hc. apply HE, kept_elem in Hc as (D & HDs & [Hne _] & ->). destruct (H D HDs Hne) as (x & Hx & Ht). exists x. split; [by apply canonize_elem|]. specialize (H0 D HDs). rewrite Forall_forall in H0. apply (proj2 (lit_true_values w x (H0 x Hx))). done.
  Qed.
  Lemma cb_api : api_spec 2 nv ABdd (cb_spec nv cnf T) (means ABdd (cb_spec nv cnf T) nv).
  Proof. destruct (cb_load_elem cnf HL) as (HA & _). destruct (cb_contract nv cnf cb_canon cb_small T) as (H1 & H2 & H3 & H4); [by apply HA|]. by apply as_user. Qed.
End loaded.

(** With up to 65535 clauses, the specification keeps the contract whatever sets of states the analysis leaves.  An input is loaded iff it is
    announced.  If the sets are those of the analysis, and badState reads nothing outside, the specification stands for the conjunction of the
    clauses. *)
Theorem C63_specification : forall (sort : bool) (nv nc : nat) (Cs : list (list Z)) (numbers : list Z), dimacs Cs numbers -> Z.of_nat nc <= 65535 ->
  ((exists cnf, cb_load sort nv nc numbers 0 cnf) <-> announced nv nc Cs) /\
  forall cnf T, cb_load sort nv nc numbers 0 cnf ->
    (let sp := cb_spec nv cnf T in spec_ok sp /\ spec_congr sp /\ one_code sp /\ (top_level sp <= nv)%nat) /\
    forall m, diagrams nv cnf m T -> inside nv cnf T -> forall w, vec_ok 2 w -> bdd_sem (cb_spec nv cnf T) nv w = true <-> models Cs (values nv w).
Proof.
  intros sort nv nc Cs numbers HD Hnc. split; [by apply cb_load_iff|]. intros cnf T HL. split.
  - apply cb_contract; [by eapply cb_canon|by eapply cb_small|]. destruct (cb_load_elem sort nv nc Cs numbers HD cnf HL) as (HA & _). apply HA.
  - intros m HT Hin w Hw. by eapply cb_family.
Qed.

(** The analysis is sound: no state that a satisfying assignment runs through is outside the sets it computes.  The state below level i + 1 is the
    set of the clauses that have a variable above level i and no true literal there. *)
Theorem C63_analysis : forall (sort : bool) (nv nc : nat) (Cs : list (list Z)) (numbers : list Z) cnf m w i a, dimacs Cs numbers -> cb_load sort nv nc numbers 0 cnf -> Z.of_nat nc <= 65535 ->
  models Cs (values nv w) -> (i <= nv)%nat ->
  (forall k c x, cnf !! k = Some c -> head c = Some x -> (i < level_of nv (Z.abs x))%nat ->
     a (Z.of_nat k + 1) = true <-> forall y, y ∈ c -> (i < level_of nv (Z.abs y))%nat -> (if 0 <? y then values nv w y else negb (values nv w (- y))) = false) ->
  frontier nv cnf m i a = true.
Proof.
  intros sort nv nc Cs numbers cnf m w i a HD HL Hnc Hmod Hi Ha. pose proof (cb_canon sort nv nc Cs numbers HD cnf HL) as Hcan. pose proof (cb_small sort nv nc Cs numbers HD cnf HL Hnc) as Hsm.
  destruct (cb_load_elem sort nv nc Cs numbers HD cnf HL) as (_ & HE & _). pose proof HD as [H0 _]. rewrite Forall_forall in H0.
  apply (frontier_ok nv cnf Hcan (fun _ => CC true) w); [|done|].
  - intros j c Hj. apply numbered_elem in Hj as (k & Hk & _). apply elem_of_list_lookup_2 in Hk. apply HE, kept_elem in Hk as (D & HDs & [Hne _] & ->). destruct (Hmod D HDs Hne) as (x & Hx & Ht). exists x. split; [by apply canonize_elem|]. specialize (H0 D HDs). rewrite Forall_forall in H0. by apply (proj2 (lit_true_values nv nc w x (H0 x Hx))).
  - intros j c Hj Hl. pose proof Hj as Hn. apply numbered_elem in Hj as (k & Hk & ->). pose proof (Forall_lookup_1 _ _ _ _ Hcan Hk) as [_ Hne]. destruct c as [|x c]; [done|]. rewrite (Z.add_comm 1). unfold enter_level in Hl. cbn [hd] in Hl. rewrite (Ha k (x :: c) x Hk eq_refl) by (unfold level_of; lia).
    unfold pending. apply forall_proper. intros y. split; intros H Hy Hly; specialize (H Hy); unfold lit_level, level_of in *; pose proof (lit_range nv cnf Hcan _ _ y Hn Hy) as (Hy0 & _); specialize (H ltac:(lia)).
    + rewrite (lit_true_values nv nc) by done. intros [[B V]|[B V]]; [rewrite (proj2 (Z.ltb_lt _ _) B), V in H; done|]. destruct (Z.ltb_spec 0 y); [lia|]. by rewrite V in H.
    + rewrite (lit_true_values nv nc) in H by done. destruct (Z.ltb_spec 0 y).
      * destruct (values nv w y) eqn:V; [|done]. exfalso. apply H. by left.
      * destruct (values nv w (- y)) eqn:V; [done|]. exfalso. apply H. right. split; [lia|done].
Qed.

Lemma no_analysis nv cnf : diagrams nv cnf ANone (fun _ => CC true) /\ inside nv cnf (fun _ => CC true).
Proof.
  split; [intros i _; split; [by exists 0|done]|]. intros l s b _ _. unfold cb_child. cbv zeta. cbn [bad_state negb mbind option_bind]. by destruct (_ && _).
Qed.
Lemma program_api nv nc sort m Cs numbers d : dimacs Cs numbers -> Z.of_nat nc <= 65535 -> cnfbdd sort m nv nc numbers 0 d ->
  exists P, api_dd 2 nv ABdd d P /\ forall w, vec_ok 2 w -> P w = true <-> models Cs (values nv w).
Proof.
  intros HD Hnc (cnf & T & d0 & HL & HT & Hin & HC & HR). eexists. split; [eapply ad_reduce; [eapply ad_construct; [by eapply cb_api|by apply con_sequential]|exact HR]|]. intros w Hw. by eapply cb_family.
Qed.
(** The program returns for every announced input with up to 65535 clauses with -n, and with the analysis if badState reads nothing outside.  The
    diagram it reduces is the BDD of the clauses: it maps an assignment to true iff the assignment satisfies them. *)
Theorem C63_function : forall (sort : bool) (nv nc : nat) (Cs : list (list Z)) (numbers : list Z), dimacs Cs numbers -> announced nv nc Cs -> Z.of_nat nc <= 65535 ->
  (exists d, cnfbdd sort ANone nv nc numbers 0 d) /\
  (forall m cnf T, cb_load sort nv nc numbers 0 cnf -> diagrams nv cnf m T -> inside nv cnf T -> exists d, cnfbdd sort m nv nc numbers 0 d) /\
  forall m d, cnfbdd sort m nv nc numbers 0 d -> dd_wf d /\ (row (rt d) <= nv)%nat /\
    forall w, vec_ok 2 w -> bdd_sem (dd_spec d) nv w = true <-> models Cs (values nv w).
Proof.
  intros sort nv nc Cs numbers HD HA Hnc.
  assert (forall m cnf T, cb_load sort nv nc numbers 0 cnf -> diagrams nv cnf m T -> inside nv cnf T -> exists d, cnfbdd sort m nv nc numbers 0 d) as HX.
  { intros m cnf T HL HT Hin. pose proof (cb_api sort nv nc Cs numbers HD cnf HL Hnc T) as AS.
    destruct (C54_progress 2 nv ltac:(lia)) as (PS & PD & _ & _). destruct (PS _ _ _ AS) as [[d0 E0] _].
    assert (api_dd 2 nv ABdd d0 _) as A0 by (eapply ad_construct; [exact AS|by apply con_sequential]). destruct (PD _ _ _ A0) as (([d1 E1] & _) & _).
    exists d1, cnf, T, d0. split; [done|]. split; [done|]. split; [done|]. split; [done|]. by apply red_sequential. }
  split; [|split; [exact HX|]].
  - apply (cb_load_iff sort nv nc Cs numbers HD) in HA as [cnf HL]. destruct (no_analysis nv cnf). by eapply HX.
  - intros m d Hd. destruct (program_api nv nc sort m Cs numbers d HD Hnc Hd) as (P & HP & HS). destruct (C54_meaning 2 nv ABdd d P ltac:(lia) HP) as (W & A & R & HM). split; [done|]. split; [done|]. intros w Hw. rewrite <- HS by done. by rewrite <- HM.
Qed.

(** The number of solutions that is printed is the number of satisfying assignments, if 2^nv fits into the storage that evaluate allots for
    the root level of the reduced diagram; so it does if the function depends on the first variable. *)
Theorem C63_solutions : forall (sort : bool) (nv nc : nat) (Cs : list (list Z)) (numbers : list Z) m d junk, dimacs Cs numbers -> Z.of_nat nc <= 65535 -> cnfbdd sort m nv nc numbers 0 d ->
  room_for 2 nv (max_words 2 (row (rt d))) \/ row (rt d) = nv ->
  exists ds A, bdd_cardinality nv (max_words 2) junk d = Some ds /\ decimal ds (N.of_nat (length A)) /\ NoDup A /\
    forall l, l ∈ A <-> length l = nv /\ Forall (fun b => (b < 2)%nat) l /\ models Cs (values nv (vec_of_list l)).
Proof.
  intros sort nv nc Cs numbers m d junk HD Hnc Hd Hroom. destruct (program_api nv nc sort m Cs numbers d HD Hnc Hd) as (P & HP & HS). destruct (C54_meaning 2 nv ABdd d P ltac:(lia) HP) as (W & A & R & HM). cbn [means] in HM.
  assert (exists ds N, bdd_cardinality nv (max_words (d_ar d)) junk d = Some ds /\ decimal ds N /\ number_of (d_ar d) nv (bdd_sem (dd_spec d) nv) N) as (ds & N & E & HN & L & H1 & H2 & H3).
  { destruct Hroom as [Hr|<-]; [apply C14_bdd_cardinality_partial; [done|done|by rewrite A]|by apply C14_bdd_cardinality_top]. }
  rewrite A in E, H3. exists ds, L. split; [done|]. rewrite <- H2. split; [done|]. split; [done|]. intros l. rewrite H3. split; intros (Q1 & Q2 & Q3); (split; [done|]); (split; [done|]).
  - apply HS; [|rewrite <- HM; [done|]]; intros i; unfold vec_of_list; (destruct (le_lt_dec (length l) (i - 1)) as [Hi|Hi]; [rewrite nth_overflow by done; lia|]); rewrite Forall_forall in Q2; apply Q2, elem_of_list_In, nth_In; done.
  - assert (vec_ok 2 (vec_of_list l)) as Hv. { intros i; unfold vec_of_list; (destruct (le_lt_dec (length l) (i - 1)) as [Hi|Hi]; [rewrite nth_overflow by done; lia|]); rewrite Forall_forall in Q2; apply Q2, elem_of_list_In, nth_In; done. }
    rewrite HM by done. by apply HS.
Qed.

(** The output file has one line for every satisfying assignment and no other line. *)
Definition signed (nv : nat) (val : Z -> bool) : list Z := map (fun i => if val (Z.of_nat i) then Z.of_nat i else - Z.of_nat i) (seq 1 nv).
Lemma line_inj nv (S S' : gset nat) : (forall l, l ∈ S -> 0 < l <= nv)%nat -> (forall l, l ∈ S' -> 0 < l <= nv)%nat -> cb_line nv S = cb_line nv S' -> S = S'.
Proof.
  intros H1 H2 E. apply set_eq. intros l. destruct (decide (1 <= l <= nv)%nat) as [Hl|Hl]; [|split; intros H; [apply H1 in H|apply H2 in H]; lia].
  assert (cb_line nv S !! (nv - l)%nat = cb_line nv S' !! (nv - l)%nat) as Ei by (by rewrite E). unfold cb_line in Ei. change (map ?f (seq 1 nv)) with (f <$> seq 1 nv) in Ei. rewrite !list_lookup_fmap, !lookup_seq_lt in Ei by lia. cbn [fmap option_fmap option_map] in Ei. cbv zeta in Ei.
  replace (Z.to_nat (Z.of_nat nv - Z.of_nat (1 + (nv - l)) + 1)) with l in Ei by lia.
  destruct (bool_decide_reflect (l ∈ S)), (bool_decide_reflect (l ∈ S')); try done; injection Ei; lia.
Qed.
Lemma line_signed nv (S : gset nat) : cb_line nv S = signed nv (values nv (vec_of_set S)).
Proof. unfold cb_line, signed. apply map_ext. intros i. cbv zeta. unfold values, level_of, vec_of_set. by destruct (bool_decide _). Qed.
Lemma signed_vals nv val val' : (forall x, 1 <= x <= Z.of_nat nv -> val x = val' x) -> signed nv val = signed nv val'.
Proof. intros H. unfold signed. apply map_ext_in. intros i Hi. apply in_seq in Hi. rewrite H by lia. done. Qed.
Lemma lines_ok nv nc Cs (P : vec -> bool) sets : announced nv nc Cs -> (forall w, vec_ok 2 w -> P w = true <-> models Cs (values nv w)) -> NoDup sets ->
  (forall S : gset nat, S ∈ sets <-> (forall l, l ∈ S -> (0 < l <= nv)%nat) /\ P (vec_of_set S) = true) ->
  NoDup (map (cb_line nv) sets) /\ forall line, line ∈ map (cb_line nv) sets <-> exists val, line = signed nv val /\ models Cs val.
Proof.
  intros HA HS H2 H3.
  assert (forall val val', (forall x, 1 <= x <= Z.of_nat nv -> val x = val' x) -> models Cs val -> models Cs val') as Hext.
  { intros val val' Hv H C HC Hne. destruct (H C HC Hne) as (x & Hx & Ht). exists x. split; [done|]. destruct HA as (_ & _ & HR & _). specialize (HR C x HC Hx). destruct Ht as [[? Ht]|[? Ht]]; [left|right]; (split; [done|]); rewrite <- Ht; symmetry; apply Hv; lia. }
  assert (forall S : gset nat, vec_ok 2 (vec_of_set S)) as Hvo by (intros S l; unfold vec_of_set; case_bool_decide; lia).
  split.
  - clear -H2 H3. assert (forall S, S ∈ sets -> forall l, l ∈ S -> (0 < l <= nv)%nat) as HB by (intros S HS; by apply H3). clear H3. induction H2 as [|S sets Hn H2 IH]; cbn [map]; [constructor|]. constructor; [|apply IH; intros S' HS'; apply HB; by right].
    intros Hin. apply elem_of_list_fmap in Hin as (S' & E & HS'). apply line_inj in E; [by subst|apply HB; left|apply HB; by right].
  - intros line. rewrite elem_of_list_fmap. split.
    + intros (S & -> & HSs). exists (values nv (vec_of_set S)). split; [apply line_signed|]. apply HS; [done|]. by apply H3.
    + intros (val & -> & Hval). set (S := list_to_set (List.filter (fun l => val (Z.of_nat nv - Z.of_nat l + 1)) (seq 1 nv)) : gset nat).
      assert (forall x, 1 <= x <= Z.of_nat nv -> val x = values nv (vec_of_set S) x) as Hv.
      { intros x Hx. unfold values, vec_of_set, level_of. assert (Z.to_nat (Z.of_nat nv - x + 1) ∈ S <-> val x = true) as Hin.
        { unfold S. rewrite elem_of_list_to_set, elem_of_list_In, filter_In, in_seq. replace (Z.of_nat nv - Z.of_nat (Z.to_nat (Z.of_nat nv - x + 1)) + 1) with x by lia. split; [tauto|]. intros ?. split; [lia|done]. }
        case_bool_decide as Hb; cbn; [by apply Hin|]. destruct (val x); [|done]. exfalso. apply Hb. by apply Hin. }
      exists S. split; [rewrite line_signed; by apply signed_vals|]. apply H3. split.
      * intros l Hl. unfold S in Hl. apply elem_of_list_to_set, elem_of_list_In, filter_In in Hl as [Hl _]. apply in_seq in Hl. lia.
      * apply HS; [done|]. by apply (Hext val).
Qed.
Theorem C63_output : forall (sort : bool) (nv nc : nat) (Cs : list (list Z)) (numbers : list Z) m d, dimacs Cs numbers -> Z.of_nat nc <= 65535 -> cnfbdd sort m nv nc numbers 0 d ->
  exists zdd N sets, bdd2zdd (Z.of_nat nv) d = Some zdd /\ (forall m fuel, (N <= m)%nat -> (N <= fuel)%nat -> dd_sets m fuel zdd = Some sets) /\
    NoDup (map (cb_line nv) sets) /\
    forall line, line ∈ map (cb_line nv) sets <-> exists val, line = signed nv val /\ models Cs val.
Proof.
  intros sort nv nc Cs numbers m d HD Hnc Hd. destruct (program_api nv nc sort m Cs numbers d HD Hnc Hd) as (P & HP & HS). destruct (C54_progress 2 nv ltac:(lia)) as (_ & PD & _ & _). destruct (PD _ _ _ HP) as (_ & _ & _ & [zdd E] & _).
  destruct (C54_iteration nv zdd P) as (N & sets & H1 & H2 & H3); [by eapply ad_bdd2zdd|]. exists zdd, N, sets. split; [done|]. split; [done|].
  assert (announced nv nc Cs) as HA. { destruct Hd as (cnf & T & d0 & HL & _). apply (cb_load_iff sort nv nc Cs numbers HD). by exists cnf. }
  by eapply lines_ok.
Qed.

(** ** where it goes wrong *)
(** The clause numbers are stored as 16-bit integers.  Clause 65536 becomes number 0 and is never satisfied any more: a satisfiable CNF with 65536
    clauses gets the BDD of the constant false. *)
Fixpoint nums (j : Z) (k : nat) : list Z := match k with O => [] | S k' => j :: nums (j + 1) k' end.
Lemma nums_range j k : Forall (fun x => j <= x < j + Z.of_nat k) (nums j k).
Proof. revert j. induction k as [|k IH]; intros j; cbn [nums]; constructor; [lia|]. eapply Forall_impl; [apply IH|]. cbn. intros; lia. Qed.
Lemma nums_sorted j k : StronglySorted Z.lt (nums j k).
Proof. revert j. induction k as [|k IH]; intros j; cbn [nums]; constructor; [done|]. eapply Forall_impl; [apply nums_range|]. cbn. intros; lia. Qed.
Lemma numbered_app j A B : numbered_from j (A ++ B) = numbered_from j A ++ numbered_from (j + Z.of_nat (length A)) B.
Proof. revert j. induction A as [|c A IH]; intros j; cbn [numbered_from app length]; [by rewrite Z.add_0_r|]. rewrite IH. do 3 f_equal. lia. Qed.
Lemma collect_const (g : list Z -> nat) c j k : flat_map (fun p => repeat (fst p) (g (snd p))) (numbered_from j (replicate k c)) = match g c with O => [] | 1%nat => nums j k | _ => flat_map (fun p => repeat (fst p) (g (snd p))) (numbered_from j (replicate k c)) end.
Proof.
  destruct (g c) as [|[|n]] eqn:E; [| |done]; revert j; induction k as [|k IH]; intros j; cbn [replicate numbered_from flat_map nums fst snd]; rewrite ?E; try done; cbn [repeat app]; [apply IH|]. by rewrite IH.
Qed.
Lemma merge_none f c : merge f [] [] c = [].
Proof. by destruct f. Qed.
Lemma merge_drop_all f l y : (S (length l) <= f)%nat -> StronglySorted Z.lt (l ++ [y]) -> merge f [] (l ++ [y]) l = [to_work y].
Proof.
  revert f. induction l as [|x l IH]; intros [|f] Hf HS; cbn [length] in Hf; try lia.
  - cbn [app merge skip keep_or_drop]. by rewrite merge_none.
  - cbn [app merge skip]. cbv zeta. rewrite Z.ltb_irrefl. cbn [keep_or_drop]. rewrite Z.eqb_refl. cbn [app]. apply IH; [lia|]. cbn in HS. by inversion_clear HS.
Qed.
Lemma merge_drop_last f l y : (S (length l) <= f)%nat -> Forall (fun x => x < y) l -> Forall small l -> merge f [] (l ++ [y]) [y] = l.
Proof.
  revert f. induction l as [|x l IH]; intros [|f] Hf HF HS; cbn [length] in Hf; try lia.
  - cbn [app merge skip]. cbv zeta. rewrite Z.ltb_irrefl. cbn [keep_or_drop]. rewrite Z.eqb_refl. apply merge_none.
  - inversion_clear HF as [|? ? Hx HF']. inversion_clear HS as [|? ? Sx HS']. cbn [app merge skip]. cbv zeta. destruct (Z.ltb_spec y x); [lia|]. cbn [keep_or_drop]. destruct (Z.eqb_spec y x); [lia|]. cbn [app]. unfold to_work. rewrite Z.mod_small by (unfold small in Sx; lia). f_equal. apply IH; [lia|done|done].
Qed.
Section many.
  Context (K : nat) (HK : Z.of_nat K = 65535).
  Definition many : list (list Z) := replicate K [1] ++ [[-1; 2]].
  Lemma many_kept : kept many = many.
  Proof.
    unfold many, kept. rewrite flat_map_app. f_equal. clear HK. induction K as [|k IH]; [done|]. cbn [replicate flat_map]. rewrite IH. replace (if keep [1] then [canonize [1]] else []) with [[1]] by (by vm_compute). done.
  Qed.
  Lemma many_count : count_ne many = S K.
  Proof. unfold many, count_ne. rewrite sum_list_with_app. cbn. rewrite Nat.add_1_r. f_equal. clear HK. induction K as [|k IH]; [done|]. cbn. by rewrite IH. Qed.
  Lemma many_forall (P : list Z -> Prop) : P [1] -> P [-1; 2] -> Forall P many.
  Proof. intros H1 H2. unfold many. apply Forall_app. split; [by apply Forall_replicate|]. by repeat constructor. Qed.
  Lemma many_collect (g : list Z -> nat) : (g [1%Z] <= 1)%nat -> collect many g = (match g [1] with O => [] | _ => nums 1 K end) ++ repeat 65536 (g [-1; 2]).
  Proof.
    intros Hg. unfold collect, many. rewrite numbered_app, flat_map_app, replicate_length, HK, collect_const. f_equal; [by destruct (g [1]) as [|[|n]]; [| |lia]|]. cbn [numbered_from flat_map fst snd]. by rewrite app_nil_r.
  Qed.
  Lemma many_false w : bdd_sem (cb_spec 2 many (fun _ => CC true)) 2 w = false.
  Proof.
    assert (enter 2 many 2 = nums 1 K ++ [65536]) as E2 by (unfold enter; rewrite many_collect by (vm_compute; lia); done).
    assert (enter 2 many 1 = []) as E1 by (unfold enter; rewrite many_collect by (vm_compute; lia); done).
    assert (posi 2 many 2 = nums 1 K) as P2 by (unfold posi; rewrite many_collect by (vm_compute; lia); cbn; by rewrite app_nil_r).
    assert (posi 2 many 1 = [65536]) as P1 by (unfold posi; rewrite many_collect by (vm_compute; lia); done).
    assert (nega 2 many 2 = [65536]) as N2 by (unfold nega; rewrite many_collect by (vm_compute; lia); done).
    assert (nega 2 many 1 = []) as N1 by (unfold nega; rewrite many_collect by (vm_compute; lia); done).
    assert (Forall small (nums 1 K)) as Hsm by (eapply Forall_impl; [apply nums_range|]; cbn; unfold small; intros; lia).
    assert (Forall (fun x => x < 65536) (nums 1 K)) as Hlt by (eapply Forall_impl; [apply nums_range|]; cbn; intros; lia).
    assert (StronglySorted Z.lt (nums 1 K ++ [65536])) as Hss.
    { pose proof (nums_sorted 1 K) as H. revert H Hlt. clear. induction (nums 1 K) as [|x l IH]; intros H HF; cbn; [repeat constructor|]. inversion_clear H. inversion_clear HF. constructor; [by apply IH|]. apply Forall_app. split; [done|]. by repeat constructor. }
    assert (forall s l b, get_child (cb_spec 2 many (fun _ => CC true)) s l b = (if (l - 1 <=? completing 2 many) && bool_decide (cb_work 2 many s l b = []) then (-1, s) else (l - 1, new_set (cb_work 2 many s l b)))) as HG.
    { intros s l b. cbn [cb_spec get_child]. unfold cb_child. cbv zeta. cbn [bad_state negb mbind option_bind]. by destruct (_ && _). }
    unfold bdd_sem. cbn [cb_spec get_root]. unfold cb_root. change (2 =? 0)%nat with false. cbn [fst snd]. cbn [bdd_eval]. change (Z.of_nat 2 =? Z.of_nat 2) with true. cbv iota.
    assert (exists x s, (x = 0 \/ x = 1) /\ get_child (cb_spec 2 many (fun _ => CC true)) [] (Z.of_nat 2) (w 2%nat) = (1, x :: s)) as (x & s & Hx & ->).
    { rewrite HG. unfold cb_work. cbv zeta. change (Z.of_nat 2) with 2. rewrite E2. change (2 - 1) with 1. destruct (w 2%nat) as [|n].
      - rewrite N2, merge_drop_last; [|rewrite app_length; cbn; lia|done|done]. rewrite (new_set_sorted (nums 1 K)) by apply nums_sorted. destruct K as [|k] eqn:EK; [lia|]. cbn [nums]. rewrite bool_decide_eq_false_2 by done. rewrite andb_false_r. eauto.
      - rewrite P2, merge_drop_all; [|rewrite app_length; cbn; lia|done]. rewrite bool_decide_eq_false_2 by done. rewrite andb_false_r. exists 0, []. split; [by left|done]. }
    cbn [fst snd]. change (1 =? Z.of_nat 1) with true. cbv iota. rewrite HG. change (Z.of_nat 1) with 1. unfold cb_work. cbv zeta. rewrite E1. cbn [length Nat.add].
    set (sat := match w 1%nat with O => nega 2 many 1 | _ => posi 2 many 1 end). assert (sat = [] \/ sat = [65536]) as Hsat by (unfold sat; destruct (w 1%nat); [by left|by right]).
    cbn [merge]. cbv zeta. assert (keep_or_drop (skip sat x) x = (true, sat)) as ->.
    { destruct Hsat as [->| ->]; [done|]. cbn [skip]. destruct (Z.ltb_spec 65536 x); [lia|]. cbn [keep_or_drop]. destruct (Z.eqb_spec 65536 x); [lia|done]. }
    cbn [app]. rewrite bool_decide_eq_false_2 by done. rewrite andb_false_r. cbn [fst snd]. done.
  Qed.
End many.
Theorem C63_many_clauses_refuted : exists (nv nc : nat) (Cs : list (list Z)) cnf val, Z.of_nat nc = 65536 /\ dimacs Cs (written Cs) /\ announced nv nc Cs /\
  models Cs val /\ cb_load false nv nc (written Cs) 0 cnf /\ exists T, diagrams nv cnf ANone T /\ inside nv cnf T /\ forall w, bdd_sem (cb_spec nv cnf T) nv w = false.
Proof.
  assert (exists K : nat, Z.of_nat K = 65535) as [K HK] by (exists (Z.to_nat 65535); by rewrite Z2Nat.id).
  assert (Forall (Forall (fun x => x <> 0)) (many K)) as HF by (apply many_forall; repeat constructor; lia). assert (dimacs (many K) (written (many K))) as HD by (split; [done|by left]).
  assert (announced 2 (S K) (many K)) as HA. { apply announced_alt. split; [lia|]. split; [lia|]. split; [apply many_forall; unfold in_range; repeat constructor; lia|apply many_count]. }
  exists 2%nat, (S K), (many K), (many K), (fun _ => true). split; [lia|]. split; [done|]. split; [done|]. split; [|split].
  - intros C HC _. revert C HC. apply Forall_forall. apply many_forall; [exists 1; split; [by left|left; split; [lia|done]]|exists 2; split; [right; by left|left; split; [lia|done]]].
  - exists (many K). split; [|done]. apply announced_alt in HA as (H1 & H2 & H3). rewrite (read_dimacs_ok 2 (S K) (many K)), bool_decide_eq_true_2, many_kept; done.
  - exists (fun _ => CC true). destruct (no_analysis 2 (many K)). split; [done|]. split; [done|]. by apply many_false.
Qed.
(** A formula over 63 variables that is always true: the number of solutions 2^63 does not fit into the storage for a diagram without
    nodes. *)
Theorem C63_solutions_refuted : exists d, cnfbdd false ANone 63 1 (written [[1; -1]]) 0 d /\ announced 63 1 [[1; -1]] /\ (forall val, models [[1; -1]] val) /\
  forall junk, bdd_cardinality 63 (max_words 2) junk d = None.
Proof.
  exists (Dd 2 (terminal_row 2 :: replicate 63 []) n1). split; [|split; [|split]].
  - exists [], (fun _ => CC true). eexists. split; [exists []; split; [vm_compute; reflexivity|done]|]. destruct (no_analysis 63 []). split; [done|]. split; [done|]. split; [vm_compute; reflexivity|]. apply red_sequential. vm_compute. reflexivity.
  - apply announced_alt. split; [lia|]. split; [lia|]. split; [unfold in_range; repeat constructor; lia|done].
  - intros val C HC _. apply elem_of_list_singleton in HC as ->. destruct (val 1) eqn:E; [exists 1; split; [left|left; split; [lia|done]]|exists (-1); split; [right; left|right; split; [lia|done]]].
  - intros junk. by vm_compute.
Qed.

(** With the clauses x1 or x2, not x1 or x3, not x2 and the bottom-up analysis (-b), the state after x1 = 1 is the set of clause 2 alone.  The set of
    states at level 2 does not contain clause 1.  badState looks for 1 in the list 2, and reads the element in front of the first one. *)
Definition cnf_out : list (list Z) := [[1; 2]; [-1; 3]; [-2]].
Definition sets_out (i : Z) : cdd :=
  if i =? 0 then CN 2 (CC false) (CC true) else if i =? 1 then CN 3 (CC false) (CN 1 (CC false) (CC true)) else if i =? 2 then CN 1 (CC false) (CC true) else CC true.
Theorem C63_outside_refuted : dimacs cnf_out (written cnf_out) /\ announced 3 3 cnf_out /\ cb_load false 3 3 (written cnf_out) 0 cnf_out /\
  diagrams 3 cnf_out AUp sets_out /\
  exists s, reach (cb_spec 3 cnf_out sets_out) 3 s /\ cb_child 3 cnf_out sets_out s 3 1 = None /\ ~ inside 3 cnf_out sets_out.
Proof.
  split; [split; [repeat constructor; lia|by left]|]. split; [|split; [exists cnf_out; split; [vm_compute; reflexivity|done]|split]].
  - apply announced_alt. split; [lia|]. split; [lia|]. split; [unfold in_range; repeat constructor; lia|done].
  - intros i Hi. destruct i as [|[|[|[|i]]]]; [| | | |lia]; (split; [exists 4; cbn; repeat split; lia|intros a; vm_compute; destruct (a 1), (a 2), (a 3); reflexivity]).
  - assert (reach (cb_spec 3 cnf_out sets_out) 3 []) as Hr by (apply (reach_root (cb_spec 3 cnf_out sets_out)); vm_compute; reflexivity).
    assert (cb_child 3 cnf_out sets_out [] 3 1 = None) as Hc by (vm_compute; reflexivity). exists []. split; [done|]. split; [done|].
    intros H. destruct (H 3 [] 1%nat Hr ltac:(lia)) as [r E]. rewrite Hc in E. discriminate E.
Qed.

(** ** a case: the clauses of C62_case *)
(** with the sets of states after the bottom-up analysis *)
Definition run_cb (T : Z -> cdd) (nv nc : nat) (numbers : list Z) : option (dd * list N * list (list Z)) :=
  cnf ← read_dimacs nv nc numbers 0; d0 ← construct_dd (cb_spec nv cnf T); d ← reduce_seq true false d0;
  ds ← bdd_cardinality nv (max_words 2) (fun _ => 0%N) d; z ← bdd2zdd (Z.of_nat nv) d; sets ← dd_sets 20 20 z; Some (d, ds, map (cb_line nv) sets).
Example C63_case :
  dimacs cnf1 (written cnf1) /\ announced 3 4 cnf1 /\ (exists cnf, cb_load true 3 4 (written cnf1) 0 cnf) /\
  exists d, cnfbdd false ANone 3 4 (written cnf1) 0 d /\ row (rt d) = 3%nat /\
    option_map (fun r => (snd (fst r), snd r)) (run_cb (fun _ => CC true) 3 4 (written cnf1)) = Some ([5%N], [[-1; -2; -3]; [-1; -2; 3]; [1; -2; 3]; [1; 2; -3]; [1; 2; 3]]).
Proof.
  destruct C62_case as (HD & HA & _). split; [done|]. split; [done|]. split; [by apply (cb_load_iff true 3 4 cnf1)|].
  destruct (run_cb (fun _ => CC true) 3 4 (written cnf1)) as [[[d ds] ls]|] eqn:E; [|vm_compute in E; discriminate E]. exists d. split; [|split].
  - unfold run_cb in E. destruct (read_dimacs 3 4 (written cnf1) 0) as [cnf|] eqn:E0; [|done]. cbn [mbind option_bind] in E. destruct (construct_dd _) as [d0|] eqn:E1; [|done]. cbn [mbind option_bind] in E. destruct (reduce_seq _ _ d0) as [d'|] eqn:E2; [|done]. cbn [mbind option_bind] in E.
    destruct (bdd_cardinality _ _ _ d'); [|done]. cbn [mbind option_bind] in E. destruct (bdd2zdd _ d'); [|done]. cbn [mbind option_bind] in E. destruct (dd_sets _ _ _); [|done]. cbn [mbind option_bind] in E. injection E as -> _ _.
    exists cnf, (fun _ => CC true), d0. destruct (no_analysis 3 cnf). split; [by exists cnf|]. split; [done|]. split; [done|]. split; [done|]. by apply red_sequential.
  - apply (f_equal (fun o => match o with Some (d, _, _) => row (rt d) | None => 0%nat end)) in E. vm_compute in E. by symmetry.
  - rewrite <- E. vm_compute. reflexivity.
Qed.

(** With the bottom-up analysis the state in which clause 2 is still open below level 2 is cut, and badState reads nothing outside. *)
Definition cnf_up : list (list Z) := [[-1; 2]; [1]].
Definition sets_up (i : Z) : cdd := if i =? 0 then CN 1 (CC false) (CC true) else if i =? 1 then CN 2 (CC false) (CC true) else CC true.
Example C63_analysis_case : announced 2 2 cnf_up /\ cb_load false 2 2 (written cnf_up) 0 cnf_up /\ diagrams 2 cnf_up AUp sets_up /\ inside 2 cnf_up sets_up /\
  cb_child 2 cnf_up sets_up [] 2 0 = Some (0, []) /\ cb_child 2 cnf_up sets_up [] 2 1 = Some (1, [1]) /\ exists d, cnfbdd false AUp 2 2 (written cnf_up) 0 d.
Proof.
  assert (announced 2 2 cnf_up) as HA by (apply announced_alt; split; [lia|]; split; [lia|]; split; [unfold in_range; repeat constructor; lia|done]).
  assert (cb_load false 2 2 (written cnf_up) 0 cnf_up) as HL by (exists cnf_up; split; [vm_compute; reflexivity|done]).
  assert (diagrams 2 cnf_up AUp sets_up) as HT.
  { intros i Hi. destruct i as [|[|[|i]]]; [| | |lia]; (split; [exists 4; cbn; repeat split; lia|intros a; vm_compute; destruct (a 1), (a 2); reflexivity]). }
  assert (forall l s, reach (cb_spec 2 cnf_up sets_up) l s -> (l, s) = (2, []) \/ (l, s) = (1, [1])) as HR.
  { intros l s H. induction H as [H|l s b Hr IH Hb Hc]; [by left|]. cbn [cb_spec ar] in Hb. destruct b as [|[|b]]; [| |lia]; destruct IH as [IH|IH]; injection IH as -> ->; vm_compute in Hc |- *; try discriminate Hc; by right. }
  assert (inside 2 cnf_up sets_up) as Hin.
  { intros l s b Hr Hb. apply HR in Hr as [E|E]; injection E as -> ->; (destruct b as [|[|b]]; [| |lia]); vm_compute; eauto. }
  split; [done|]. split; [done|]. split; [done|]. split; [done|]. split; [vm_compute; reflexivity|]. split; [vm_compute; reflexivity|].
  assert (dimacs cnf_up (written cnf_up)) as HD by (split; [repeat constructor; lia|by left]). destruct (C63_function false 2 2 cnf_up _ HD HA ltac:(lia)) as (_ & H & _). by apply (H AUp cnf_up sets_up).
Qed.

Print Assumptions C63_specification.
Print Assumptions C63_analysis.
Print Assumptions C63_function.
Print Assumptions C63_solutions.
Print Assumptions C63_output.
Print Assumptions C63_many_clauses_refuted.
Print Assumptions C63_solutions_refuted.
Print Assumptions C63_outside_refuted.
Print Assumptions C63_case.
Print Assumptions C63_analysis_case.
