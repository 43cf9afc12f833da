(** C54: whole programs over the API. *)
From Verif Require Import Base Sem Ex M_Table Tree S_Dd M_Engine M_Builder P_Builder M_Ops M_Conv M_Subset M_Equal M_Iter M_Eval S_Eval
  M_Reducer Props_Reduce Props_Conv Props_Subset Props_Iter Props_Eval S_Api P_Api S_Big.
Local Open Scope nat_scope.

(** However a program obtained it, a diagram is well formed and contains exactly the vectors that the set operations
    of the program give. *)
Theorem C54_meaning : forall a n k d P, 0 < a -> api_dd a n k d P ->
  dd_wf d /\ d_ar d = a /\ row (rt d) <= n /\ forall v, vec_ok a v -> means k (dd_spec d) n v = P v.
Proof. intros a n k d P Ha H. destruct (proj2 (api_good a n Ha) k d P H). done. Qed.

(** No step of a program gets stuck: every operation that the API offers for a diagram or specification returns,
    for every number of threads and every schedule. *)
Theorem C54_progress : forall a n, 0 < a ->
  (forall k s P, api_spec a n k s P ->
     is_Some (construct_dd s) /\
     forall threads tasks sched, 0 < threads -> 0 < tasks -> sched_ok threads (fun _ => tasks) sched -> is_Some (construct_mp s threads tasks sched)) /\
  (forall k d P, api_dd a n k d P ->
     never_fails true false d /\ never_fails false true d /\ never_fails false false d /\
     is_Some (bdd2zdd (Z.of_nat n) d) /\ is_Some (zdd2bdd (Z.of_nat n) d)) /\
  (forall d P s R, api_dd a n AZdd d P -> api_spec a n AZdd s R ->
     (forall shared, is_Some (zdd_subset shared d s)) /\
     forall threads sched shared, 0 < threads -> sched_ok threads (sub_groups (tab d)) sched -> is_Some (zdd_subset_mp threads sched shared d s)) /\
  is_Some (universal a n).
Proof.
  intros a n Ha. destruct (api_good a n Ha) as [GS GD]. split_and!.
  - intros k s P H. apply GS in H as [H1 _ _ _ _ _]. split.
    + destruct (construct_built s H1) as (x & -> & _). done.
    + intros threads tasks sched Ht Hk Hs. destruct (construct_mp_built s threads tasks sched H1 Ht Hk Hs) as (x & -> & _). done.
  - intros k d P H. apply GD in H as [H1 _ _ _]. split_and!.
    + by apply C04_bdd_reduce_preserves.
    + by apply C05_zdd_reduce_preserves.
    + by apply C06_qdd_reduce_preserves.
    + destruct (C22_bdd2zdd d (Z.of_nat n) H1) as (x & -> & _). done.
    + destruct (C22_zdd2bdd d (Z.of_nat n) H1) as (x & -> & _). done.
  - intros d P s R H H'. apply GD in H as [H1 H2 _ _]. apply GS in H' as [S1 _ S3 S4 _ _]. split.
    + intros shared. destruct (C23_zdd_subset shared d s H1 S1 S3 ltac:(congruence)) as (x & -> & _). done.
    + intros threads sched shared Ht Hs. destruct (C42_mp_zdd_subset threads sched shared d s H1 S1 S3 ltac:(congruence) Ht Hs) as (x & -> & _). done.
  - destruct (C37_universal a n Ha) as (x & -> & _). done.
Qed.

(** zddCardinality prints the number of vectors in the family. *)
Theorem C54_count : forall a n d P junk, 0 < a -> api_dd a n AZdd d P ->
  exists ds N, zdd_cardinality (max_words a) junk d = Some ds /\ decimal ds N /\ number_of a n P N.
Proof.
  intros a n d P junk Ha H. destruct (C54_meaning a n AZdd d P Ha H) as (W & A & R & S).
  destruct (C13_zdd_cardinality_exact_storage d junk W) as (ds & N & E & D & C). exists ds, N. rewrite A in E, C. split; [done|]. split; [done|].
  destruct (C n R) as (L & H1 & H2 & H3). exists L. split; [done|]. split; [done|]. intros l. rewrite H3.
  assert (Forall (fun x => x < a) l -> vec_ok a (vec_of_list l)) as Hv.
  { intros HF i. unfold vec_of_list. destruct (le_lt_dec (length l) (i - 1)) as [Hi|Hi]; [by rewrite nth_overflow|]. rewrite Forall_forall in HF. apply HF, elem_of_list_In, nth_In. done. }
  cbn [means] in S. split; intros (Q1 & Q2 & Q3); (split; [done|]); (split; [done|]); [rewrite <- S|rewrite S]; auto.
Qed.

(** Iterating visits every set of the family exactly once and nothing else. *)
Theorem C54_iteration : forall n d P, api_dd 2 n AZdd d P ->
  exists N sets, (forall m fuel, N <= m -> N <= fuel -> dd_sets m fuel d = Some sets) /\ NoDup sets /\
  forall S, S ∈ sets <-> (forall l, l ∈ S -> 0 < l <= n) /\ P (vec_of_set S) = true.
Proof.
  intros n d P H. destruct (C54_meaning 2 n AZdd d P ltac:(lia) H) as (W & A & R & S).
  destruct (C15_iteration d W A) as (N & sets & H1 & H2 & H3). exists N, sets. split; [done|]. split; [done|].
  intros T. rewrite (H3 n T R). cbn [means] in S. rewrite S; [done|]. intros l. unfold vec_of_set. case_bool_decide; lia.
Qed.

(** Programs that mean the same end in equal diagrams, and operator== tells: two results of any two programs,
    reduced, compare equal exactly when the families are the same. *)
Theorem C54_canonical : forall a n k same d1 d2 P1 P2 d1' d2', 0 < a ->
  api_dd a n k d1 P1 -> api_dd a n k d2 P2 -> reduced_as k d1 d1' -> reduced_as k d2 d2' -> (same = true -> tab d1' = tab d2') ->
  exists b, dd_eq same d1' d2' = Some b /\ (b = true <-> forall v, vec_ok a v -> P1 v = P2 v).
Proof.
  intros a n k same d1 d2 P1 P2 d1' d2' Ha H1 H2 R1 R2 Hs.
  destruct (C54_meaning a n k d1 P1 Ha H1) as (W1 & A1 & L1 & S1). destruct (C54_meaning a n k d2 P2 Ha H2) as (W2 & A2 & L2 & S2).
  assert (exists b, dd_eq same d1' d2' = Some b /\ (b = true <-> forall v, vec_ok (d_ar d1) v -> means k (dd_spec d1) n v = means k (dd_spec d2) n v)) as (b & E & Hb).
  { destruct k; cbn [reduced_as means] in *.
    - apply C09_bdd_canonical; try done. congruence.
    - apply C09_zdd_canonical; try done. congruence. }
  exists b. split; [done|]. rewrite Hb, A1. split; intros H v Hv; specialize (H v Hv).
  - by rewrite S1, S2 in H.
  - by rewrite S1, S2.
Qed.

(** A program: construct the union of "2 of 5" and "3 of 5", zddReduce, convert to a BDD, bddReduce, convert back,
    take the subset of "3 of 5", zddReduce.  Its result equals the reduced diagram of "3 of 5", and has 10 members. *)
Example C54_case : let P2 := means AZdd (comb 5 2) 5 in let P3 := means AZdd (comb 5 3) 5 in
  exists d d3, api_dd 2 5 AZdd d (fun v => (P2 v || P3 v) && P3 v) /\ api_dd 2 5 AZdd d3 P3 /\
    dd_eq false d d3 = Some true /\ zdd_cardinality (max_words 2) (fun _ => 7%N) d = Some [1;0]%N.
Proof.
  intros P2 P3.
  assert (exists x, (d1 ← construct_dd (zdd_union (comb 5 2) (comb 5 3)); d2 ← reduce_seq false true d1; d3 ← zdd2bdd 5 d2; d4 ← reduce_seq true false d3;
    d5 ← bdd2zdd 5 d4; d6 ← zdd_subset true d5 (comb 5 3); d7 ← reduce_seq false true d6;
    e1 ← construct_dd (comb 5 3); e2 ← reduce_hash false true e1; b ← dd_eq false d7 e2; c ← zdd_cardinality (max_words 2) (fun _ => 7%N) d7; Some (b, c)) = Some x
    /\ x = (true, [1;0]%N)) as (x & E & ->) by (eexists; split; vm_compute; reflexivity).
  destruct (construct_dd (zdd_union _ _)) as [d1|] eqn:E1; [|done]. cbn [mbind option_bind] in E.
  destruct (reduce_seq false true d1) as [d2|] eqn:E2; [|done]. cbn [mbind option_bind] in E.
  destruct (zdd2bdd 5 d2) as [d3|] eqn:E3; [|done]. cbn [mbind option_bind] in E.
  destruct (reduce_seq true false d3) as [d4|] eqn:E4; [|done]. cbn [mbind option_bind] in E.
  destruct (bdd2zdd 5 d4) as [d5|] eqn:E5; [|done]. cbn [mbind option_bind] in E.
  destruct (zdd_subset true d5 _) as [d6|] eqn:E6; [|done]. cbn [mbind option_bind] in E.
  destruct (reduce_seq false true d6) as [d7|] eqn:E7; [|done]. cbn [mbind option_bind] in E.
  destruct (construct_dd (comb 5 3)) as [e1|] eqn:F1; [|done]. cbn [mbind option_bind] in E.
  destruct (reduce_hash false true e1) as [e2|] eqn:F2; [|done]. cbn [mbind option_bind] in E.
  destruct (dd_eq false d7 e2) as [b|] eqn:F3; [|done]. cbn [mbind option_bind] in E.
  destruct (zdd_cardinality _ _ d7) as [c|] eqn:F4; [|done]. cbn [mbind option_bind] in E. injection E as -> ->.
  assert (forall k, k <= 5 -> api_spec 2 5 AZdd (comb 5 k) (means AZdd (comb 5 k) 5)) as HU.
  { intros k Hk. apply as_user; [apply comb_ok|apply comb_congr|apply comb_one_code|done|]. unfold top_level. cbn [comb get_root fst]. lia. }
  exists d7, e2. split_and!; [| |done|done].
  - eapply ad_reduce; [|apply red_sequential; exact E7].
    eapply ad_subset; [|apply HU; lia|eapply sub_sequential; exact E6].
    eapply ad_bdd2zdd; [|exact E5]. eapply ad_reduce; [|apply red_sequential; exact E4].
    eapply ad_zdd2bdd; [|exact E3]. eapply ad_reduce; [|apply red_sequential; exact E2].
    eapply ad_construct; [|apply con_sequential; exact E1]. apply as_union; [done|apply HU; lia|apply HU; lia].
  - eapply ad_reduce; [|apply red_generic; exact F2]. eapply ad_construct; [|apply con_sequential; exact F1]. apply HU; lia.
Qed.

Print Assumptions C54_meaning.
Print Assumptions C54_progress.
Print Assumptions C54_count.
Print Assumptions C54_iteration.
Print Assumptions C54_canonical.
