(** C15: iteration over a binary ZDD. *)
From Verif Require Import Base Sem Ex M_Table Tree P_Count M_Iter P_Iter M_Builder P_Wfb.

(** The vector of a set of levels. *)
Definition vec_of_set (S : gset nat) : Sem.vec := fun l => if bool_decide (l ∈ S) then 1 else 0.

(** for (it = begin(); it != end(); ++it): terminates (for all sufficiently large step bounds, with the same
    result), visits no set twice, and visits exactly the sets of the family, over any number of variables that
    covers the diagram. *)
Theorem C15_iteration : forall d : dd, dd_wf d -> d_ar d = 2 ->
  exists N sets, (forall m fuel, N <= m -> N <= fuel -> dd_sets m fuel d = Some sets) /\
  NoDup sets /\
  forall n S, row (rt d) <= n ->
    (S ∈ sets <-> (forall l, l ∈ S -> 0 < l <= n) /\ zdd_sem (dd_spec d) n (vec_of_set S) = true).
Proof.
  intros d Hd H2. destruct (rep_exists (d_ar d) (tab d) ltac:(apply Hd) (rt d) ltac:(apply Hd)) as [T HT].
  assert (tok 2 T) as Hk by (rewrite <- H2; eapply rep_tok; [apply Hd|exact HT]).
  exists (length (paths T) + leaves T), (map set_of (paths T)).
  split; [intros m fuel H1 H3; apply dd_sets_ok; try done; lia|]. split; [by apply paths_NoDup|].
  intros n S Hn. assert (vec_ok (d_ar d) (vec_of_set S)) as Hv.
  { rewrite H2. intros l. unfold vec_of_set. case_bool_decide; lia. }
  rewrite (dd_zdd_sem d n _ T Hd HT Hv). assert (tlev T <= n) as HL by (by rewrite (rep_lev _ _ _ HT)).
  split.
  - intros HS. assert (forall l, l ∈ S -> 0 < l <= n) as HR.
    { intros l Hl. specialize (sets_range T S l Hk HS Hl). lia. }
    split; [done|]. by apply (paths_sem n T S Hk HL HR).
  - intros [HR Hz]. by apply (paths_sem n T S Hk HL HR).
Qed.

(** begin() == end() exactly for the empty family *)
Theorem C15_begin_is_end_iff_empty : forall d : dd, dd_wf d -> d_ar d = 2 ->
  exists N, forall fuel, N <= fuel -> exists it, it_begin (tab d) fuel (rt d) = Some it /\
    (it_eqb it it_end = true <-> forall S, (forall l, l ∈ S -> 0 < l <= row (rt d)) -> zdd_sem (dd_spec d) (row (rt d)) (vec_of_set S) = false).
Proof.
  intros d Hd H2. destruct (C15_iteration d Hd H2) as (N & sets & Hs & _ & Hin). exists N. intros fuel Hf.
  specialize (Hs N fuel (le_n _) Hf) as Hs1. unfold dd_sets in Hs1. apply bind_Some in Hs1 as (it & Eb & Ec).
  exists it. split; [done|]. destruct (it_eqb it it_end) eqn:Ee.
  - split; [|done]. intros _ S HR. apply not_true_is_false. intros Hz.
    assert (S ∈ sets) as Hm by (by apply (Hin (row (rt d)) S)).
    destruct N; cbn [it_collect] in Ec; rewrite Ee in Ec; injection Ec as <-; by apply elem_of_nil in Hm.
  - split; [done|]. intros Hall. exfalso. destruct N; cbn [it_collect] in Ec; rewrite Ee in Ec; [done|].
    apply bind_Some in Ec as (it' & _ & Ec). apply bind_Some in Ec as (l & _ & Ec). injection Ec as <-.
    assert (itemset it ∈ itemset it :: l) as Hm by left. apply (Hin (row (rt d)) _ ltac:(lia)) in Hm as [H3 H4].
    by rewrite Hall in H4.
Qed.

(** combinations, and a diagram with dead ends, a redundant node, an all-zero node and skipped levels *)
Definition deadends : dd := Dd 2 [terminal_row 2; [[n0; n0]; [n0; n1]; [n1; n0]]; [[mk 1 0; n0]; [mk 1 1; mk 1 0]; [n0; mk 1 2]]; [];
                              [[mk 2 0; mk 2 1]; [mk 2 2; mk 1 0]]; [[mk 4 0; mk 4 1]]] (mk 5 0).
Example C15_case : dd_wf deadends /\
  fmap (map elements) (dd_sets 10 10 deadends) = Some [[1; 4]; [5; 2]] /\
  (exists d, construct_dd (comb 4 2) = Some d /\ fmap length (dd_sets 20 20 d) = Some 6) /\
  dd_sets 1 1 (Dd 2 [terminal_row 2] n1) = Some [∅] /\ dd_sets 1 1 (Dd 2 [terminal_row 2] n0) = Some [].
Proof.
  split; [by apply dd_wfb_ok|]. split; [by vm_compute|]. split; [eexists; split; [vm_compute; reflexivity|by vm_compute]|by vm_compute].
Qed.
Print Assumptions C15_iteration.
Print Assumptions C15_begin_is_end_iff_empty.
