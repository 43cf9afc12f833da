(** C25: PathCounter. *)
From Verif Require Import Base Sem Ex M_Hash M_Big S_Big P_Big M_PathCount S_Path P_PathCount P_PathCount2 P_PathCount3.
Local Open Scope N_scope.

(** [P] lists the accepting paths of the specification, each once *)
Definition all_paths (sp : spec) (P : list (list (Z * nat))) : Prop := NoDup P /\ forall p, p ∈ P <-> accepting_path sp p.

Section props.
Context (sp : spec) (Hok : spec_ok sp) (Hsh : shareable sp).

Lemma exists_paths : exists P, all_paths sp P /\ np sp (fst (get_root sp)) (snd (get_root sp)) = N.of_nat (length P).
Proof.
  exists (apaths sp (Z.to_nat (fst (get_root sp))) (fst (get_root sp)) (snd (get_root sp))).
  assert (forall p, p ∈ apaths sp (Z.to_nat (fst (get_root sp))) (fst (get_root sp)) (snd (get_root sp)) <-> accepting_path sp p) as H.
  { apply apaths_ok; [done| |lia]. intros H. by apply reach_root. }
  split; [split; [apply apaths_nodup|done]|done].
Qed.
Lemma bn_one_ok slack : exists x, bn_one slack = Some x /\ bok x /\ bval x = 1.
Proof. eexists. split; [reflexivity|]. apply (bok_intro _ 1 1); [by constructor|by left]. Qed.
Lemma bn_total_ok slack n : exists x, bn_total slack n = Some x /\ bok x /\ bval x = 0 /\ length x = (n / 63 + 1 + slack)%nat.
Proof.
  unfold bn_total. replace (n / 63 + 1 + slack)%nat with (S (n / 63 + slack)) by lia. cbn [replicate]. unfold big_store64. cbn [msb].
  replace (msb 0) with false by done. eexists. split; [reflexivity|]. split_and!; try (apply (bok_intro _ 0 1); [by constructor|by left]).
  cbn [length fst]. by rewrite replicate_length.
Qed.
Lemma root_code : (fst (get_root sp) <= 0)%Z ->
  decimal (if (fst (get_root sp) =? 0)%Z then [0] else [1]) (np sp (fst (get_root sp)) (snd (get_root sp))).
Proof.
  intros H. destruct (Z.eqb_spec (fst (get_root sp)) 0) as [E|E].
  - rewrite E, np_zero. split; [by repeat constructor|]. split; [done|]. split; done.
  - rewrite np_neg by lia. split; [by repeat constructor|]. split; [done|]. split; [done|]. intros d Hd H0. injection Hd as <-. done.
Qed.
Lemma count_slack_ok slack ds : count_slack slack sp = Some ds -> decimal ds (np sp (fst (get_root sp)) (snd (get_root sp))).
Proof.
  unfold count_slack, pc_big. destruct (Z.leb_spec (fst (get_root sp)) 0) as [H|H].
  - intros E. injection E as <-. by apply root_code.
  - destruct (bn_one_ok slack) as (one & -> & Ho & Eo). destruct (bn_total_ok slack (Z.to_nat (fst (get_root sp)))) as (zero & -> & Hz & Ez & _). cbn [mbind option_bind].
    destruct (pc_run _ _ _ _ _ _ _ _) as [total|] eqn:E; [|done]. cbn [mbind option_bind].
    apply (run_ok sp Hok Hsh (bn_copy slack) big_add bn_isz bok bval eq) with (wt := np sp) in E as [(s & Hh & _) Hv]; try done; try (intros; lia); try (intros; congruence); try lia.
    + intros E. destruct (big_print_ok _ _ _ Hh) as (ds' & E' & Hd). rewrite E in E'. injection E' as <-. rewrite Hv in Hd. by rewrite Z2Nat.id in Hd by lia.
    + intros ? ? ? E' ?. by eapply bn_copy_ok.
    + intros ? ? ? ? E' ? ?. by eapply bn_add_ok.
    + intros x E' Hx. apply bn_isz_ok in E'; [|done]. symmetry in E'. by apply N.eqb_eq in E'.
    + intros. by apply np_equal.
    + intros. by apply np_neg.
    + intros. by apply np_step.
    + rewrite Z2Nat.id by lia. by apply reach_root.
Qed.
Lemma count_fast_slack_ok slack ds : count_fast_slack slack sp = Some ds -> decimal ds (np sp (fst (get_root sp)) (snd (get_root sp))).
Proof.
  unfold count_fast_slack, pc_big. destruct (Z.leb_spec (fst (get_root sp)) 0) as [H|H].
  - intros E. injection E as <-. by apply root_code.
  - destruct (bn_one_ok slack) as (one & -> & Ho & Eo). destruct (bn_total_ok slack (Z.to_nat (fst (get_root sp)))) as (zero & -> & Hz & Ez & _). cbn [mbind option_bind].
    destruct (pcf_run _ _ _ _ _ _ _ _ _) as [total|] eqn:E; [|done]. cbn [mbind option_bind].
    apply (runF_ok sp Hok Hsh (bn_copy slack) big_add bn_isz bn_clear bok bval eq) with (wt := np sp) in E as [(s & Hh & _) Hv]; try done; try (intros; lia); try (intros; congruence); try lia.
    + intros E. destruct (big_print_ok _ _ _ Hh) as (ds' & E' & Hd). rewrite E in E'. injection E' as <-. rewrite Hv in Hd. by rewrite Z2Nat.id in Hd by lia.
    + intros ? ? ? E' ?. by eapply bn_copy_ok.
    + intros ? ? ? ? E' ? ?. by eapply bn_add_ok.
    + intros x E' Hx. apply bn_isz_ok in E'; [|done]. symmetry in E'. by apply N.eqb_eq in E'.
    + intros ? ? E' ?. by eapply bn_clear_ok.
    + intros. by apply np_equal.
    + intros. by apply np_neg.
    + intros. by apply np_step.
    + rewrite Z2Nat.id by lia. by apply reach_root.
Qed.

(** A result of count() or countFast() is the decimal representation of the number of accepting paths. *)
Theorem C25_count ds : count sp = Some ds -> exists P, all_paths sp P /\ decimal ds (N.of_nat (length P)).
Proof. intros E. destruct exists_paths as (P & HP & En). exists P. split; [done|]. rewrite <- En. by eapply count_slack_ok. Qed.
Theorem C25_count_fast ds : count_fast sp = Some ds -> exists P, all_paths sp P /\ decimal ds (N.of_nat (length P)).
Proof. intros E. destruct exists_paths as (P & HP & En). exists P. split; [done|]. rewrite <- En. by eapply count_fast_slack_ok. Qed.

(** count64() always answers: the number of accepting paths modulo 2^64. *)
Theorem C25_count64 : exists P, all_paths sp P /\ count64 sp = Some (N.of_nat (length P) mod 2 ^ 64).
Proof.
  destruct exists_paths as (P & HP & En). exists P. split; [done|]. rewrite <- En. clear HP En. unfold count64.
  pose proof (reach_root sp) as Hr. destruct (get_root sp) as [c s]. cbn [fst snd] in *. destruct (Z.leb_spec c 0) as [H|H].
  - destruct (Z.eqb_spec c 0) as [->|Hc]; [done|]. rewrite np_neg by lia. done.
  - assert (reach sp (Z.of_nat (Z.to_nat c)) s) as Hr' by (rewrite Z2Nat.id by lia; by apply Hr).
    destruct (run64 sp Hok Hsh (Z.to_nat c) s 1 0) as [total E]; [lia|done|done|done|]. unfold c64, a64, z64 in E. rewrite E. f_equal.
    pose proof (run_ok sp Hok Hsh c64 a64 z64 ok64 (fun x => x) eq64 (fun _ => eq_refl) (fun x y => @eq_sym _ _ _) (fun x y z => @eq_trans _ _ _ _) eq64_add eq64_mul eq64_cancel c64_ok a64_ok z64_ok
      (np sp) (np_equal sp Hok) (np_zero sp) (np_neg sp) (np_step sp Hok) (Z.to_nat c) s 1 0 total ltac:(lia) Hr' ltac:(done) ltac:(done) ltac:(done) ltac:(done) E) as [Ht Hv].
    rewrite Z2Nat.id in Hv by lia. unfold eq64 in Hv. rewrite <- Hv. symmetry. by apply N.mod_small.
Qed.

(** count() and countFast() stay inside their buffers when ar^n < 2^63 ... *)
Theorem C25_no_overflow_short : N.of_nat (ar sp) ^ Z.to_N (fst (get_root sp)) < 2 ^ 63 ->
  (exists ds, count sp = Some ds) /\ (exists ds, count_fast sp = Some ds).
Proof.
  intros Hs. unfold count, count_fast, count_slack, count_fast_slack, pc_big. destruct (Z.leb_spec (fst (get_root sp)) 0) as [H|H]; [split; by eexists|].
  destruct (bn_one_ok 0) as (one & -> & Ho & Eo). destruct (bn_total_ok 0 (Z.to_nat (fst (get_root sp)))) as (zero & -> & Hz & Ez & _). cbn [mbind option_bind].
  assert (reach sp (Z.of_nat (Z.to_nat (fst (get_root sp)))) (snd (get_root sp))) as Hr by (rewrite Z2Nat.id by lia; by apply reach_root).
  replace (Z.to_N (fst (get_root sp))) with (N.of_nat (Z.to_nat (fst (get_root sp)))) in Hs by lia.
  split.
  - destruct (run_short sp Hok Hsh 0 (Z.to_nat (fst (get_root sp))) (snd (get_root sp)) one zero) as [t E]; try done; [lia|]. rewrite E. cbn [mbind option_bind].
    apply (run_ok sp Hok Hsh (bn_copy 0) big_add bn_isz bok bval eq) with (wt := np sp) in E as [(s & Hh & _) _]; try done; try (intros; lia); try (intros; congruence); try lia.
    + destruct (big_print_ok _ _ _ Hh) as (ds' & E' & Hd). by exists ds'.
    + intros ? ? ? E' ?. by eapply bn_copy_ok.
    + intros ? ? ? ? E' ? ?. by eapply bn_add_ok.
    + intros x E' Hx. apply bn_isz_ok in E'; [|done]. symmetry in E'. by apply N.eqb_eq in E'.
    + intros. by apply np_equal.
    + intros. by apply np_neg.
    + intros. by apply np_step.
  - destruct (runF_short sp Hok Hsh 0 (Z.to_nat (fst (get_root sp))) (snd (get_root sp)) one zero) as [t E]; try done; [lia|]. rewrite E. cbn [mbind option_bind].
    apply (runF_ok sp Hok Hsh (bn_copy 0) big_add bn_isz bn_clear bok bval eq) with (wt := np sp) in E as [(s & Hh & _) _]; try done; try (intros; lia); try (intros; congruence); try lia.
    + destruct (big_print_ok _ _ _ Hh) as (ds' & E' & Hd). by exists ds'.
    + intros ? ? ? E' ?. by eapply bn_copy_ok.
    + intros ? ? ? ? E' ? ?. by eapply bn_add_ok.
    + intros x E' Hx. apply bn_isz_ok in E'; [|done]. symmetry in E'. by apply N.eqb_eq in E'.
    + intros ? ? E' ?. by eapply bn_clear_ok.
    + intros. by apply np_equal.
    + intros. by apply np_neg.
    + intros. by apply np_step.
Qed.
(** ... and count() also for any number of levels if the diagram is binary, no edge skips a level and no level has more
    than 2^62 different states. *)
Theorem C25_no_overflow_tall : ar sp = 2%nat ->
  (forall l s b, reach sp l s -> (b < ar sp)%nat -> (0 < fst (get_child sp s l b))%Z -> fst (get_child sp s l b) = (l - 1)%Z) ->
  (forall l ss, Forall (reach sp l) ss ->
     (forall k k' s s', ss !! k = Some s -> ss !! k' = Some s' -> equal_to sp l s s' = true -> k = k') ->
     N.of_nat (length ss) <= 2 ^ 62) ->
  exists ds, count sp = Some ds.
Proof.
  intros Har Hskip Hw. unfold count, count_slack, pc_big. destruct (Z.leb_spec (fst (get_root sp)) 0) as [H|H]; [by eexists|].
  destruct (bn_one_ok 0) as (one & -> & Ho & Eo). destruct (bn_total_ok 0 (Z.to_nat (fst (get_root sp)))) as (zero & -> & Hz & Ez & Hl). cbn [mbind option_bind].
  assert (reach sp (Z.of_nat (Z.to_nat (fst (get_root sp)))) (snd (get_root sp))) as Hr by (rewrite Z2Nat.id by lia; by apply reach_root).
  destruct (run_wide sp Hok Hsh 0 Hskip (Z.to_nat (fst (get_root sp))) (snd (get_root sp)) one zero) as [t E]; try done; [lia|lia|]. rewrite E. cbn [mbind option_bind].
  apply (run_ok sp Hok Hsh (bn_copy 0) big_add bn_isz bok bval eq) with (wt := np sp) in E as [(s & Hh & _) _]; try done; try (intros; lia); try (intros; congruence); try lia.
  + destruct (big_print_ok _ _ _ Hh) as (ds' & E' & Hd). by exists ds'.
  + intros ? ? ? E' ?. by eapply bn_copy_ok.
  + intros ? ? ? ? E' ? ?. by eapply bn_add_ok.
  + intros x E' Hx. apply bn_isz_ok in E'; [|done]. symmetry in E'. by apply N.eqb_eq in E'.
  + intros. by apply np_equal.
  + intros. by apply np_neg.
  + intros. by apply np_step.
Qed.
(** the same for countFast(), which merges the states of a level after creating them *)
Theorem C25_no_overflow_tall_fast : ar sp = 2%nat ->
  (forall l s b, reach sp l s -> (b < ar sp)%nat -> (0 < fst (get_child sp s l b))%Z -> fst (get_child sp s l b) = (l - 1)%Z) ->
  (forall l ss, Forall (reach sp l) ss ->
     (forall k k' s s', ss !! k = Some s -> ss !! k' = Some s' -> equal_to sp l s s' = true -> k = k') ->
     N.of_nat (length ss) <= 2 ^ 62) ->
  exists ds, count_fast sp = Some ds.
Proof.
  intros Har Hskip Hw. unfold count_fast, count_fast_slack, pc_big. destruct (Z.leb_spec (fst (get_root sp)) 0) as [H|H]; [by eexists|].
  destruct (bn_one_ok 0) as (one & -> & Ho & Eo). destruct (bn_total_ok 0 (Z.to_nat (fst (get_root sp)))) as (zero & -> & Hz & Ez & Hl). cbn [mbind option_bind].
  assert (reach sp (Z.of_nat (Z.to_nat (fst (get_root sp)))) (snd (get_root sp))) as Hr by (rewrite Z2Nat.id by lia; by apply reach_root).
  destruct (runF_wide sp Hok Hsh Hskip (Z.to_nat (fst (get_root sp))) (snd (get_root sp)) one zero) as [t E]; try done; [lia|lia|]. rewrite E. cbn [mbind option_bind].
  apply (runF_ok sp Hok Hsh (bn_copy 0) big_add bn_isz bn_clear bok bval eq) with (wt := np sp) in E as [(s & Hh & _) _]; try done; try (intros; lia); try (intros; congruence); try lia.
  + destruct (big_print_ok _ _ _ Hh) as (ds' & E' & Hd). by exists ds'.
  + intros ? ? ? E' ?. by eapply bn_copy_ok.
  + intros ? ? ? ? E' ? ?. by eapply bn_add_ok.
  + intros x E' Hx. apply bn_isz_ok in E'; [|done]. symmetry in E'. by apply N.eqb_eq in E'.
  + intros ? ? E' ?. by eapply bn_clear_ok.
  + intros. by apply np_equal.
  + intros. by apply np_neg.
  + intros. by apply np_step.
Qed.
Print Assumptions C25_no_overflow_tall_fast.
End props.

(** The combinations meet all hypotheses, for instance C(100, 50), whose count needs two words. *)
Lemma comb_shareable n k : shareable (comb n k).
Proof. split; cbn; [intros; apply Nat.eqb_sym|]. intros l s s' E. apply Nat.eqb_eq in E as ->. done. Qed.
Lemma comb_reach n k l s : reach (comb n k) l s -> (s <= k)%nat.
Proof.
  induction 1 as [|l s b Hr IH Hb Hp]; [cbn; lia|]. cbn [get_child comb fst snd] in *.
  destruct (l - 1 <=? 0)%Z; [destruct (_ =? _)%nat; lia|]. destruct (Nat.ltb_spec k (s + b)); [lia|]. done.
Qed.
Example C25_case :
  (exists ds, count (comb 100 50) = Some ds /\ decimal ds 100891344545564193334812497256) /\
  spec_ok (comb 100 50) /\ shareable (comb 100 50) /\ ar (comb 100 50) = 2%nat /\
  (forall l s b, reach (comb 100 50) l s -> (b < ar (comb 100 50))%nat -> (0 < fst (get_child (comb 100 50) s l b))%Z -> fst (get_child (comb 100 50) s l b) = (l - 1)%Z) /\
  (forall l ss, Forall (reach (comb 100 50) l) ss ->
     (forall k k' s s', ss !! k = Some s -> ss !! k' = Some s' -> equal_to (comb 100 50) l s s' = true -> k = k') ->
     N.of_nat (length ss) <= 2 ^ 62) /\
  count_fast (comb 10 5) = Some [2; 5; 2] /\ count64 (comb 100 50) = Some (100891344545564193334812497256 mod 2 ^ 64) /\
  N.of_nat (ar (comb 10 5)) ^ Z.to_N (fst (get_root (comb 10 5))) < 2 ^ 63.
Proof.
  split_and!; [|apply comb_ok|apply comb_shareable|done| | |vm_compute; reflexivity|vm_compute; reflexivity|vm_compute; reflexivity].
  - eexists. split; [vm_compute; reflexivity|]. split_and!; [by repeat constructor|by vm_compute|done|]. intros d E. injection E as <-. done.
  - intros l s b _ _. cbn [get_child comb fst]. destruct (l - 1 <=? 0)%Z; [destruct (_ =? _)%nat; lia|]. destruct (50 <? s + b)%nat; [lia|].
    destruct (_ <? _)%Z; lia.
  - intros l ss Hr Hd. assert (length ss <= 51)%nat; [|assert (51 <= 2 ^ 62) by done; lia].
    rewrite <- (seq_length 51 0). apply submseteq_length, NoDup_submseteq.
    + apply NoDup_alt. intros k k' s Hk Hk'. apply (Hd k k' s s Hk Hk'). cbn. apply Nat.eqb_refl.
    + intros s Hs. apply elem_of_seq. rewrite Forall_forall in Hr. apply Hr, comb_reach in Hs. lia.
Qed.

(** ** What the sizes of the buffers do not cover *)
(** With three branches per node, n / 63 + 1 words are not enough for the total: 3^40 needs two words, one is allocated. *)
Definition all3 (n : nat) : spec := {|
  St := unit; ar := 3; get_root := (Z.of_nat n, tt);
  get_child := fun s l b => (if (l <=? 1)%Z then (-1)%Z else (l - 1)%Z, tt);
  equal_to := fun _ _ _ => true; hash_code := fun _ _ => 0 |}.
Lemma all3_ok n : spec_ok (all3 n) /\ shareable (all3 n).
Proof.
  split; [split|split]; cbn; try done; try lia.
  - intros l s b Hr _. assert (0 < l)%Z by (clear - Hr; induction Hr; cbn in *; lia). destruct (Z.leb_spec l 1); lia.
  - intros l [] [] _ _ _ bs _. done.
Qed.
Theorem C25_arity3_refuted : exists sp, spec_ok sp /\ shareable sp /\ count sp = None /\ count_fast sp = None /\
  exists ds, count_slack 1 sp = Some ds /\ decimal ds (3 ^ 40).
Proof.
  exists (all3 40). split; [apply all3_ok|]. split; [apply all3_ok|]. split; [by vm_compute|]. split; [by vm_compute|].
  eexists. split; [vm_compute; reflexivity|]. split_and!; [by repeat constructor|by vm_compute|done|]. intros d E. injection E as <-. done.
Qed.
(** A node reached first by an edge that skips many levels is allocated with too few words for the numbers that arrive
    later: 16 states at levels 125..2 whose numbers double at every level, one of which is connected to level 1 already
    at level 63. *)
Definition skipping : spec := {|
  St := nat; ar := 2; get_root := (129%Z, 0%nat);
  get_child := fun s l b =>
    if (125 <? l)%Z then ((l - 1)%Z, (2 * s + b)%nat)
    else if (l <=? 1)%Z then ((-1)%Z, 0%nat)
    else if (l =? 2)%Z || ((l =? 63)%Z && (s =? 0)%nat && (b =? 0)%nat) then (1%Z, 0%nat)
    else ((l - 1)%Z, s);
  equal_to := fun _ s s' => (s =? s')%nat; hash_code := fun _ s => N.of_nat s |}.
Lemma skipping_ok : spec_ok skipping /\ shareable skipping.
Proof.
  split; [split|split]; cbn; try lia.
  - intros l s b Hr _. assert (0 < l)%Z by (clear - Hr; induction Hr; cbn in *; lia).
    destruct (Z.ltb_spec 125 l); cbn; [lia|]. destruct (Z.leb_spec l 1); cbn; [lia|].
    destruct (_ || _); cbn; lia.
  - intros l s s' _ _ E bs _. apply Nat.eqb_eq in E as ->. done.
  - intros. apply Nat.eqb_sym.
  - intros l s s' E. apply Nat.eqb_eq in E as ->. done.
Qed.
Theorem C25_long_edge_refuted : exists sp, spec_ok sp /\ shareable sp /\ ar sp = 2%nat /\ count sp = None /\
  exists ds, count_slack 1 sp = Some ds /\ exists N, decimal ds N /\ 2 ^ 128 <= N.
Proof.
  exists skipping. split; [apply skipping_ok|]. split; [apply skipping_ok|]. split; [done|]. split; [by vm_compute|].
  eexists. split; [vm_compute; reflexivity|]. eexists. split; [split_and!; [by repeat constructor|reflexivity|done|]|].
  - intros d E. injection E as <-. done.
  - by vm_compute.
Qed.

Print Assumptions C25_count.
Print Assumptions C25_count_fast.
Print Assumptions C25_count64.
Print Assumptions C25_no_overflow_short.
Print Assumptions C25_no_overflow_tall.
Print Assumptions C25_case.
Print Assumptions C25_arity3_refuted.
Print Assumptions C25_long_edge_refuted.
