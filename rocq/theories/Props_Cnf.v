(** C62: from a CNF to a ternary ZDD of clauses to a Boolean function. *)
From stdpp Require Import sorting.
From Verif Require Import Base Sem Ex M_Table Tree M_Engine M_Builder M_Reducer M_Subset M_Eval S_Eval S_Big M_Ops M_Conv Props_Reduce M_Equal S_Api P_Api Props_Api
  M_Cnf S_Cnf P_Cnf1 P_Cnf2 P_Cnf3 P_Cnf4.
Local Open Scope Z_scope.

(** the inputs that are accepted: the variables are those of the header and the header gives the number of clauses that are not
    empty *)
Definition announced (nv nc : nat) (Cs : list (list Z)) : Prop :=
  (1 <= nv)%nat /\ (1 <= nc)%nat /\ (forall C x, C ∈ Cs -> x ∈ C -> Z.abs x <= Z.of_nat nv) /\ length (filter (fun C => C <> []) Cs) = nc.

Lemma count_filter Cs : length (filter (fun C : list Z => C <> []) Cs) = count_ne Cs.
Proof.
  induction Cs as [|C Cs IH]; [done|]. rewrite filter_cons. change (count_ne (C :: Cs)) with (nonempty C + count_ne Cs)%nat. destruct C; [rewrite decide_False by (by intros H; apply H)|rewrite decide_True by done]; cbn [length nonempty]; lia.
Qed.
Lemma announced_alt nv nc Cs : announced nv nc Cs <-> (1 <= nv)%nat /\ (1 <= nc)%nat /\ Forall (in_range nv) Cs /\ count_ne Cs = nc.
Proof.
  unfold announced. rewrite count_filter. assert ((forall C x, C ∈ Cs -> x ∈ C -> Z.abs x <= Z.of_nat nv) <-> Forall (in_range nv) Cs) as ->; [|done].
  rewrite Forall_forall. unfold in_range. split.
  - intros H C HC. apply Forall_forall. intros x. by apply H.
  - intros H C x HC. specialize (H C HC). rewrite Forall_forall in H. apply H.
Qed.
Lemma load_eq nv nc Cs numbers : dimacs Cs numbers -> announced nv nc Cs -> load nv nc numbers 0 = Some (sort_clauses (kept Cs)).
Proof.
  intros HD HA. apply announced_alt in HA as (H1 & H2 & H3). unfold load. rewrite (read_dimacs_ok nv nc Cs) by done. by rewrite bool_decide_eq_true_2.
Qed.

(** load accepts exactly the announced inputs *)
Theorem C62_load : forall (nv nc : nat) (Cs : list (list Z)) (numbers : list Z), dimacs Cs numbers ->
  is_Some (load nv nc numbers 0) <-> announced nv nc Cs.
Proof.
  intros nv nc Cs numbers HD. split; [|intros HA; rewrite (load_eq nv nc Cs) by done; by eexists]. rewrite announced_alt. unfold load.
  destruct (decide (1 <= nv /\ 1 <= nc)%nat) as [[H1 H2]|Hn].
  - rewrite (read_dimacs_ok nv nc Cs) by done. case_bool_decide; [tauto|]. by intros [].
  - unfold read_dimacs. destruct (Nat.ltb_spec nv 1), (Nat.ltb_spec nc 1); cbn [orb]; try (by intros []). lia.
Qed.

Section loaded.
  Context (nv nc : nat) (Cs : list (list Z)) (numbers : list Z) (HD : dimacs Cs numbers) (HA : announced nv nc Cs).
  Let cnf := sort_clauses (kept Cs).
  Lemma lits_ok C : C ∈ Cs -> Forall (fun x => x <> 0 /\ Z.abs x <= Z.of_nat nv) C.
  Proof. intros HC. destruct HA as (_ & _ & HR & _). destruct HD as [H0 _]. rewrite Forall_forall in H0. specialize (H0 C HC). rewrite Forall_forall in *. intros x Hx. split; [by apply H0|by apply (HR C)]. Qed.
  Lemma cnf_inv : linv nv cnf /\ [] ∉ cnf.
  Proof.
    apply announced_alt in HA as (_ & _ & HR & _). destruct HD as [H0 _]. split; [apply sort_clauses_sorted, kept_canon; done|].
    unfold cnf. rewrite sort_clauses_elem, kept_elem. intros (D & HDs & [Hne _] & E). destruct D as [|x D]; [done|]. assert (x ∈ canonize (x :: D)) as Hx by (apply canonize_elem; left). rewrite <- E in Hx. by apply elem_of_nil in Hx.
  Qed.
  Lemma cnf_sem w : vec_ok 3 w -> zdd_sem (cn_spec nv cnf) nv w = true <-> exists C, C ∈ Cs /\ proper C /\ stands_for nv w C.
  Proof.
    intros Hw. destruct cnf_inv as [HL Hne]. rewrite (sem_ok nv cnf HL Hne w Hw). unfold cnf. rewrite sort_clauses_elem, kept_elem. split; intros (D & HDs & HP & H); exists D; (split; [done|]); (split; [done|]); pose proof (lits_ok D HDs) as Hl.
    - apply stands_same; [done|done|]. intros y. rewrite H. apply canonize_elem.
    - apply stands_same in H; [|done|done]. apply (canon_eq nv); [by apply clause_of_canon|by apply canonize_ok, HP|]. intros y. rewrite (H y). symmetry. apply canonize_elem.
  Qed.
End loaded.

(** The specification stands for the clauses of the input: the proper ones, as sets of literals. *)
Theorem C62_family : forall (nv nc : nat) (Cs : list (list Z)) (numbers : list Z) cnf (w : vec), dimacs Cs numbers -> load nv nc numbers 0 = Some cnf -> vec_ok 3 w ->
  zdd_sem (cn_spec nv cnf) nv w = true <-> exists C, C ∈ Cs /\ proper C /\ stands_for nv w C.
Proof.
  intros nv nc Cs numbers cnf w HD HL Hw. assert (announced nv nc Cs) as HA by (apply (C62_load nv nc Cs numbers HD); by eexists). rewrite (load_eq nv nc Cs) in HL by done. injection HL as <-. by apply (cnf_sem nv nc Cs numbers).
Qed.

(** It keeps the contract of specifications; no assertion fails, no clause and no literal out of range is read, and the clauses
    of a state have the literals that == skips. *)
Theorem C62_contract : forall (nv nc : nat) (Cs : list (list Z)) (numbers : list Z) cnf, dimacs Cs numbers -> load nv nc numbers 0 = Some cnf ->
  (let sp := cn_spec nv cnf in spec_ok sp /\ spec_congr sp /\ one_code sp /\ shareable sp /\ (top_level sp <= nv)%nat) /\
  is_Some (cn_root nv cnf) /\
  forall l s, reach (cn_spec nv cnf) l s -> (forall b, is_Some (cn_child nv cnf s l b)) /\ (cs_beg s < cs_end s <= length cnf)%nat /\
    forall i c, (cs_beg s <= i < cs_end s)%nat -> cnf !! i = Some c -> (cs_pos s <= length c)%nat.
Proof.
  intros nv nc Cs numbers cnf HD HL. assert (announced nv nc Cs) as HA by (apply (C62_load nv nc Cs numbers HD); by eexists). rewrite (load_eq nv nc Cs) in HL by done. injection HL as <-.
  destruct (cnf_inv nv nc Cs numbers HD HA) as [HI Hne]. set (cnf := sort_clauses (kept Cs)) in *. destruct (cn_congr nv cnf HI Hne) as [HG HS]. destruct (cn_codes nv cnf HI Hne) as [HC HO]. split; [|split].
  - intros sp. split_and!; [|done|done|done|].
    + constructor; [cbn; lia|intros l s b Hr _; by apply HC|]. intros l s s' Hr Hr' E bs. revert l s s' Hr Hr' E. induction bs as [|b bs IH]; intros l s s' Hr Hr' E HF; [done|]. apply Forall_cons in HF as [Hb HF].
      cbn [run]. destruct (Z.ltb_spec 0 l) as [Hl|]; [|done]. destruct (cg_child _ HG l s s' b Hr Hr' Hb E) as [E1 E2]. fold sp in E1, E2. f_equal. rewrite <- E1.
      destruct (Z.ltb_spec 0 (fst (get_child sp s l b))) as [Hc|Hc].
      * apply IH; [by apply (reach_child sp)| |by apply E2|done]. rewrite E1 in *. by apply (reach_child sp).
      * destruct bs; [done|]. cbn [run]. destruct (Z.ltb_spec 0 (fst (get_child sp s l b))); [lia|done].
    + unfold top_level. cbn [sp cn_spec get_root]. destruct (root_ok nv cnf HI Hne) as (s & -> & _). unfold default, id. cbn [fst]. destruct (lcode_range nv cnf HI). lia.
  - destruct (root_ok nv cnf HI Hne) as (s & -> & _). by eexists.
  - intros l s Hr. apply (reach_inv nv cnf HI Hne) in Hr as (HII & Hl & Hc). split; [intros b; destruct (child_ok nv cnf s l b HII Hl Hc) as (s' & -> & _); by eexists|].
    destruct HII as (Hb & _ & Hp). split.
    + split; [|lia]. destruct (decide (cs_beg s < cs_end s)%nat); [done|]. unfold crest, between in Hc. replace (cs_end s - cs_beg s)%nat with 0%nat in Hc by lia. change (0 = l) in Hc. lia.
    + intros i c Hi Hc'. rewrite Forall_forall in Hp. apply Hp. replace i with (cs_beg s + (i - cs_beg s))%nat in Hc' by lia. rewrite <- (between_lookup cnf _ (cs_end s)) in Hc' by lia. by eapply elem_of_list_lookup_2.
Qed.

(** ** the program *)
Lemma cnf_api nv nc Cs numbers cnf : dimacs Cs numbers -> load nv nc numbers 0 = Some cnf -> api_spec 3 nv AZdd (cn_spec nv cnf) (means AZdd (cn_spec nv cnf) nv).
Proof. intros HD HL. destruct (C62_contract nv nc Cs numbers cnf HD HL) as ((H1 & H2 & H3 & _ & H5) & _). by apply as_user. Qed.
Lemma program_api nv nc Cs numbers d : dimacs Cs numbers -> cnf2ztdd nv nc numbers 0 d ->
  exists P, api_dd 3 nv AZdd d P /\ announced nv nc Cs /\ forall w, vec_ok 3 w -> P w = true <-> exists C, C ∈ Cs /\ proper C /\ stands_for nv w C.
Proof.
  intros HD (cnf & d0 & HL & HC & HR). eexists. split; [eapply ad_reduce; [eapply ad_construct; [by eapply cnf_api|exact HC]|exact HR]|]. split; [apply (C62_load nv nc Cs numbers HD); by eexists|]. intros w Hw. by apply (C62_family nv nc Cs numbers).
Qed.

(** For every input that is accepted, the program returns for every schedule; the number of clauses it prints is the number of different
    proper clauses of the input. *)
Theorem C62_clauses : forall (nv nc : nat) (Cs : list (list Z)) (numbers : list Z), dimacs Cs numbers -> announced nv nc Cs ->
  (exists d, cnf2ztdd nv nc numbers 0 d) /\
  forall d, cnf2ztdd nv nc numbers 0 d -> forall junk, exists ds A,
    zdd_cardinality (max_words 3) junk d = Some ds /\ decimal ds (N.of_nat (length A)) /\ different_clauses Cs A.
Proof.
  intros nv nc Cs numbers HD HA. split.
  - pose proof (load_eq nv nc Cs numbers HD HA) as HL. pose proof (cnf_api nv nc Cs numbers _ HD HL) as AS.
    destruct (C54_progress 3 nv ltac:(lia)) as (PS & PD & _ & _). destruct (PS _ _ _ AS) as [[d0 E0] _]. assert (constructed (cn_spec nv (sort_clauses (kept Cs))) d0) as H0 by (by apply con_sequential).
    assert (api_dd 3 nv AZdd d0 _) as A0 by (eapply ad_construct; [exact AS|exact H0]). destruct (PD _ _ _ A0) as (_ & ([d1 E1] & _) & _). assert (reduction false true d0 d1) as H1 by (by apply red_sequential).
    exists d1, (sort_clauses (kept Cs)), d0. done.
  - intros d Hd junk. destruct (program_api nv nc Cs numbers d HD Hd) as (P & HP & _ & HS).
    destruct (C54_count 3 nv d P junk ltac:(lia) HP) as (ds & N & E & HN & L & H1 & -> & H3).
    assert (forall l, Forall (fun x => (x < 3)%nat) l -> vec_ok 3 (vec_of_list l)) as Hv.
    { intros l HF i. unfold vec_of_list. destruct (le_lt_dec (length l) (i - 1)) as [Hi|Hi]; [rewrite nth_overflow by done; lia|]. rewrite Forall_forall in HF. apply HF, elem_of_list_In, nth_In. done. }
    exists ds, (map (fun l => clause_of nv nv (vec_of_list l)) L). rewrite map_length. split; [done|]. split; [done|].
    assert (forall C, C ∈ Cs -> Forall (fun x => x <> 0 /\ Z.abs x <= Z.of_nat nv) C) as Hlit by (intros C HC; by apply (lits_ok nv nc Cs numbers HD HA)).
    split; [|split].
    + intros C HC. apply elem_of_list_fmap in HC as (l & -> & Hl). apply H3 in Hl as (Q1 & Q2 & Q3). apply HS in Q3 as (D & HDs & HPr & HSt); [|by apply Hv]. exists D. split; [done|]. split; [done|]. apply stands_same; [by apply Hv|by apply Hlit|done].
    + intros D HDs HPr. set (l := map (vec_of nv D) (seq 1 nv)).
      assert (length l = nv) as Q1 by (unfold l; by rewrite map_length, seq_length).
      assert (Forall (fun x => (x < 3)%nat) l) as Q2. { apply Forall_forall. intros x Hx. apply elem_of_list_fmap in Hx as (k & -> & _). apply vec_of_ok. }
      assert (stands_for nv (vec_of_list l) D) as Q3.
      { intros x Hx. assert (vec_of_list l (level_of nv x) = vec_of nv D (level_of nv x)) as ->; [|by apply vec_of_stands; [apply HPr|]].
        assert (1 <= level_of nv x <= nv)%nat as Hk by (unfold level_of; lia). unfold vec_of_list, l. rewrite (nth_indep _ 0%nat (vec_of nv D 0%nat)) by (rewrite map_length, seq_length; lia). rewrite map_nth, seq_nth by lia. f_equal. lia. }
      exists (clause_of nv nv (vec_of_list l)). split; [|apply stands_same; [by apply Hv|by apply Hlit|done]]. apply elem_of_list_fmap. exists l. split; [done|]. apply H3. split; [done|]. split; [done|]. apply HS; [by apply Hv|]. by exists D.
    + intros i j C D Hi Hj HSm. change (map (fun l => clause_of nv nv (vec_of_list l)) L) with ((fun l => clause_of nv nv (vec_of_list l)) <$> L) in Hi, Hj. rewrite list_lookup_fmap in Hi, Hj.
      destruct (L !! i) as [l|] eqn:El; [|done]. destruct (L !! j) as [l'|] eqn:El'; [|done]. cbn in Hi, Hj. injection Hi as <-. injection Hj as <-.
      apply elem_of_list_lookup_2 in El as Hl. apply elem_of_list_lookup_2 in El' as Hl'. apply H3 in Hl as (Q1 & Q2 & _), Hl' as (R1 & R2 & _).
      assert (l = l') as <-; [|by eapply NoDup_lookup]. apply (nth_ext _ _ 0%nat 0%nat); [lia|]. intros k Hk.
      pose proof (Hv l Q2) as V1. pose proof (Hv l' R2) as V2. assert (vec_of_list l (S k) = vec_of_list l' (S k)) as Ek; [|unfold vec_of_list in Ek; by replace (S k - 1)%nat with k in Ek by lia].
      set (x := Z.of_nat nv - Z.of_nat (S k) + 1). assert (HX : forall u, vec_ok 3 u -> (u (S k) = 1%nat <-> - x ∈ clause_of nv nv u) /\ (u (S k) = 2%nat <-> x ∈ clause_of nv nv u)).
      { intros u Hu. rewrite !clause_of_elem by done. unfold x. split; split.
        - intros Eu. exists (S k). split; [lia|]. left. done.
        - intros (m & Hm & [[Eu Ex]|[Eu Ex]]); [|lia]. by replace (S k) with m by lia.
        - intros Eu. exists (S k). split; [lia|]. right. done.
        - intros (m & Hm & [[Eu Ex]|[Eu Ex]]); [lia|]. by replace (S k) with m by lia. }
      destruct (HX _ V1) as [X1 X2], (HX _ V2) as [Y1 Y2]. rewrite (HSm (- x)) in X1. rewrite (HSm x) in X2. rewrite <- Y1 in X1. rewrite <- Y2 in X2. clear -X1 X2 V1 V2. pose proof (V1 (S k)). pose proof (V2 (S k)). lia.
Qed.

(** The Boolean function that evaluate(ZtddToCudd()) returns is the conjunction of the clauses of the input that are not
    empty. *)
Theorem C62_function : forall (nv nc : nat) (Cs : list (list Z)) (numbers : list Z) d, dimacs Cs numbers -> cnf2ztdd nv nc numbers 0 d ->
  exists f, evaluate ztdd_to_cudd tt d = Some f /\
    forall asg, f asg = true <-> forall C, C ∈ Cs -> C <> [] -> satisfies (fun x => asg (level_of nv x)) C.
Proof.
  intros nv nc Cs numbers d HD Hd. destruct (program_api nv nc Cs numbers d HD Hd) as (P & HP & HA & HS). destruct (C54_meaning 3 nv AZdd d P ltac:(lia) HP) as (W & A & R & HM). cbn [means] in HM.
  destruct (ztdd_to_cudd_ok d W A) as (f & T & E & HT & HC). exists f. split; [done|]. intros asg.
  pose proof (rep_lev _ _ _ HT) as Hlev. apply (conj_lifts _ nv) in HC; [|lia]. rewrite (HC asg).
  assert (forall w, vec_ok 3 w -> tzdd nv T w = true <-> exists C, C ∈ Cs /\ proper C /\ stands_for nv w C) as HT'.
  { intros w Hw. rewrite <- HS by done. rewrite <- HM by done. by rewrite (dd_zdd_sem d nv w T W HT) by (by rewrite A). }
  assert (forall C, C ∈ Cs -> Forall (fun x => x <> 0 /\ Z.abs x <= Z.of_nat nv) C) as Hlit by (intros C HC'; by apply (lits_ok nv nc Cs numbers HD HA)).
  split.
  - intros H C HCs Hne. destruct (tautological C) eqn:Et.
    + apply taut_satisfied; [|by apply taut_spec]. destruct HD as [H0 _]. rewrite Forall_forall in H0. by apply H0.
    + assert (~ tautology C) as Hnt by (rewrite <- taut_spec; congruence). apply (hit_satisfies nv asg (vec_of nv C)); [by apply Hlit|by apply vec_of_stands|]. apply H; [apply vec_of_ok|]. apply HT'; [apply vec_of_ok|]. exists C. split; [done|]. split; [done|]. by apply vec_of_stands.
  - intros H w Hw Hz. apply HT' in Hz as (C & HCs & HPr & HSt); [|done]. apply (hit_satisfies nv asg w C); [by apply Hlit|done|]. apply H; [done|]. apply HPr.
Qed.

(** ** where it goes wrong *)
(** readDimacs uses x after the last read has failed.  If the value it happens to have is not 0, no complete input is accepted. *)
Theorem C62_junk_refuted : forall (nv nc : nat) (Cs : list (list Z)) (junk : Z), Forall (Forall (fun x => x <> 0)) Cs -> announced nv nc Cs -> junk <> 0 ->
  load nv nc (written Cs) junk = None.
Proof.
  intros nv nc Cs junk HF HA Hj. apply announced_alt in HA as (H1 & H2 & H3 & H4). unfold load, read_dimacs. destruct (Nat.ltb_spec nv 1), (Nat.ltb_spec nc 1); try lia. cbn [orb].
  rewrite ofold_app, read_written by (done || lia). rewrite bool_decide_eq_true_2 by (split; [done|lia]). cbn [ofold]. unfold read_literal. destruct (Z.eqb_spec junk 0); [done|]. destruct (Z.ltb_spec (Z.of_nat nv) (Z.abs junk)); [done|].
  destruct (Nat.leb_spec nc (0 + count_ne Cs)); [done|lia].
Qed.
(** A formula with an empty clause is never accepted with the right number of clauses in the header, although it has a meaning. *)
Theorem C62_empty_clause_refuted : forall (nv nc : nat) (Cs : list (list Z)) (numbers : list Z), dimacs Cs numbers -> length Cs = nc -> [] ∈ Cs ->
  load nv nc numbers 0 = None.
Proof.
  intros nv nc Cs numbers HD Hn Hin. destruct (load nv nc numbers 0) as [cnf|] eqn:E; [|done]. exfalso. assert (is_Some (load nv nc numbers 0)) as HS by (by eexists). apply (C62_load nv nc Cs numbers HD) in HS as (_ & _ & _ & HN).
  clear -Hn Hin HN. subst nc. assert (length (filter (fun C : list Z => C <> []) Cs) < length Cs)%nat; [|lia]. clear HN. induction Cs as [|C Cs IH]; [by apply elem_of_nil in Hin|]. rewrite filter_cons. apply elem_of_cons in Hin as [<-|Hin].
  - rewrite decide_False by (intros H; by apply H). pose proof (filter_length (fun C : list Z => C <> []) Cs). cbn. lia.
  - specialize (IH Hin). destruct (decide _); cbn; lia.
Qed.

(** ** a case: (x1 or not x2) and (not x1 or x2 or x3), the first clause twice in different orders, and a tautology *)
Definition cnf1 : list (list Z) := [[1; -2]; [-1; 3; 2; 3]; [-2; 1]; [2; 3; -2]].
Definition run_cnf (nv nc : nat) (numbers : list Z) : option (list N * bfun) :=
  cnf ← load nv nc numbers 0; d0 ← construct_dd (cn_spec nv cnf); d ← reduce_seq false true d0;
  ds ← zdd_cardinality (max_words 3) (fun _ => 0%N) d; f ← evaluate ztdd_to_cudd tt d; Some (ds, f).
Lemma run_cnf_ok nv nc numbers ds f : run_cnf nv nc numbers = Some (ds, f) ->
  exists d, cnf2ztdd nv nc numbers 0 d /\ zdd_cardinality (max_words 3) (fun _ => 0%N) d = Some ds /\ evaluate ztdd_to_cudd tt d = Some f.
Proof.
  unfold run_cnf. destruct (load nv nc numbers 0) as [cnf|] eqn:EL; [|done]. cbn [mbind option_bind]. destruct (construct_dd _) as [d0|] eqn:E0; [|done]. cbn [mbind option_bind]. destruct (reduce_seq _ _ d0) as [d|] eqn:E1; [|done]. cbn [mbind option_bind].
  destruct (zdd_cardinality _ _ d) as [ds'|] eqn:E2; [|done]. cbn [mbind option_bind]. destruct (evaluate _ _ d) as [f'|] eqn:E3; [|done]. cbn [mbind option_bind]. intros [= <- <-]. exists d. split; [|split; [exact E2|exact E3]].
  exists cnf, d0. split; [done|]. split; [by apply con_sequential|by apply red_sequential].
Qed.
Definition assignments : list (bool * bool * bool) := b1 ← [false; true]; b2 ← [false; true]; b3 ← [false; true]; [(b1, b2, b3)].
Definition true_for (f : bfun) (a : bool * bool * bool) : bool := let '(x1, x2, x3) := a in f (fun l => match l with 3%nat => x1 | 2%nat => x2 | _ => x3 end).
Example C62_case :
  dimacs cnf1 (written cnf1) /\ announced 3 4 cnf1 /\ load 3 4 (written cnf1) 0 = Some [[-1; 2; 3]; [1; -2]] /\
  (exists d f, cnf2ztdd 3 4 (written cnf1) 0 d /\ zdd_cardinality (max_words 3) (fun _ => 0%N) d = Some [2%N] /\ evaluate ztdd_to_cudd tt d = Some f /\
    map (true_for f) assignments = [true; true; false; false; false; true; true; true]) /\
  load 3 3 (written cnf1) 0 = None /\ load 2 4 (written cnf1) 0 = None /\ load 3 4 (written cnf1) 1 = None.
Proof.
  assert (Forall (Forall (fun x => x <> 0)) cnf1) as HF by (repeat constructor; lia).
  assert (announced 3 4 cnf1) as HA. { apply announced_alt. split_and!; [lia|lia| |done]. unfold in_range. repeat constructor; lia. }
  split; [split; [done|by left]|]. split; [done|]. split; [vm_compute; reflexivity|]. split; [|split; [|split]]; [|vm_compute; reflexivity|vm_compute; reflexivity|vm_compute; reflexivity].
  destruct (run_cnf 3 4 (written cnf1)) as [[ds f]|] eqn:E; [|vm_compute in E; discriminate E]. destruct (run_cnf_ok _ _ _ _ _ E) as (d & H1 & H2 & H3). exists d, f.
  assert (option_map (fun r => (fst r, map (true_for (snd r)) assignments)) (run_cnf 3 4 (written cnf1)) = Some ([2%N], [true; true; false; false; false; true; true; true])) as E' by (vm_compute; reflexivity).
  rewrite E in E'. cbn [option_map fst snd] in E'. pose proof (f_equal (fun o => from_option snd [] o) E') as Ef. pose proof (f_equal (fun o => from_option fst [] o) E') as Ed. cbn [from_option fst snd] in Ed, Ef. subst ds. split; [exact H1|]. split; [exact H2|]. split; [exact H3|]. exact Ef.
Qed.

Print Assumptions C62_load.
Print Assumptions C62_family.
Print Assumptions C62_contract.
Print Assumptions C62_clauses.
Print Assumptions C62_function.
Print Assumptions C62_junk_refuted.
Print Assumptions C62_empty_clause_refuted.
Print Assumptions C62_case.
