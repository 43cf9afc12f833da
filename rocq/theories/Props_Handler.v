(** C24: copies of diagrams are independent values. *)
From Verif Require Import Base Sem M_Table M_Subset M_Handler S_Handler P_Handler P_Release P_Wfb Ex.
From stdpp Require Import gmap.

(** C24: run any history of constructions, copies, assignments (not of a variable to itself), destructions, reductions,
    subsettings, and accesses through getDiagram(), on any allocator that may reuse the addresses of deleted objects.
    If the history makes sense on independent values and never has 2^32 - 3 live variables, then it runs without undefined
    behaviour (no use of deleted storage, no double deletion) and without exception, at the end every variable holds the
    value it has when all variables are independent, and the storage that exists is exactly the storage some live
    variable owns. *)
Theorem C24_independent : forall (a : nat) (alloc : heap -> nat) (l : list op) (m : values),
  (forall h, h !! alloc h = None) ->
  v_run a ∅ l = Some m ->
  (forall k c m1, l !! k = Some c -> v_run a ∅ (take k l) = Some m1 ->
     release_ok m1 c /\ (N.of_nat (size m1) + 3 < 2 ^ 32)%N) ->
  exists w, exec_all a alloc world0 l = Done w /\
    (forall x, view w x = m !! x) /\
    (forall p, is_Some (hp w !! p) <-> owned w p).
Proof.
  intros a alloc l m Halloc Hrun Hside.
  assert (forall l w m0, winv w m0 -> v_run a m0 l = Some m ->
    (forall k c m1, l !! k = Some c -> v_run a m0 (take k l) = Some m1 -> release_ok m1 c /\ (N.of_nat (size m1) + 3 < 2 ^ 32)%N) ->
    exists w', exec_all a alloc w l = Done w' /\ winv w' m) as G.
  { clear l Hrun Hside. induction l as [|c l IH]; intros w m0 HW Hrun Hside; simpl in *.
    - injection Hrun as <-. eauto.
    - destruct (v_exec a m0 c) as [m1|] eqn:E; [|done]. simpl in Hrun.
      destruct (Hside 0 c m0 eq_refl eq_refl) as [H1 H2].
      destruct (exec_spec a alloc Halloc w m0 c m1 HW H1 E) as [[_ HX]|(w1 & -> & HW1)]; [lia|]. cbn [obnd].
      apply (IH w1 m1 HW1 Hrun). intros k c' m2 Hk Hm2. apply (Hside (S k) c' m2); [done|]. simpl. rewrite E. done. }
  destruct (G l world0 ∅) as (w & E & HI & HV); [|done|done|].
  { split; [intros p; by vm_compute|]. intros x. by simpl. }
  exists w. split; [done|]. split.
  - intros x. unfold view. specialize (HV x). destruct (vars w !! x) as [[p r]|].
    + destruct HV as (t & Ht & ->). cbn [mbind option_bind]. unfold ent in Ht. destruct (hp w !! p); [|done]. simpl in Ht. by injection Ht as <-.
    + by rewrite HV.
  - intros p. specialize (HI p). split.
    + intros [o Ho]. rewrite Ho in HI. destruct (cnt_owned (vars w) p) as (x & r & E'); [tauto|]. by exists x, r.
    + intros (x & r & Hx). apply cnt_pos in Hx. destruct (hp w !! p); [done|]. lia.
Qed.

(** Without a bound on the number of live variables: a history that makes sense on independent values either ends in an
    exception (a reference count would overflow) or ends as above; nothing undefined happens. *)
Theorem C24_safe : forall (a : nat) (alloc : heap -> nat) (l : list op) (m : values),
  (forall h, h !! alloc h = None) ->
  v_run a ∅ l = Some m ->
  (forall k c m1, l !! k = Some c -> v_run a ∅ (take k l) = Some m1 -> release_ok m1 c) ->
  match exec_all a alloc world0 l with
  | Done w => (forall x, view w x = m !! x) /\ (forall p, is_Some (hp w !! p) <-> owned w p)
  | Thrown => exists k m1, v_run a ∅ (take k l) = Some m1 /\ (2 ^ 32 <= N.of_nat (size m1) + 1)%N
  | Undef => False
  end.
Proof.
  intros a alloc l m Halloc Hrun Hside.
  assert (forall l w m0, winv w m0 -> v_run a m0 l = Some m ->
    (forall k c m1, l !! k = Some c -> v_run a m0 (take k l) = Some m1 -> release_ok m1 c) ->
    match exec_all a alloc w l with Done w' => winv w' m
    | Thrown => exists k m1, v_run a m0 (take k l) = Some m1 /\ (2 ^ 32 <= N.of_nat (size m1) + 1)%N | Undef => False end) as G.
  { clear l Hrun Hside. induction l as [|c l IH]; intros w m0 HW Hrun Hside; simpl in *.
    - injection Hrun as <-. eauto.
    - destruct (v_exec a m0 c) as [m1|] eqn:E; [|done]. simpl in Hrun.
      pose proof (Hside 0 c m0 eq_refl eq_refl) as H1.
      destruct (exec_spec a alloc Halloc w m0 c m1 HW H1 E) as [[-> HX]|(w1 & -> & HW1)]; cbn [obnd]; [by exists 0, m0|].
      assert (forall k c' m2, l !! k = Some c' -> v_run a m1 (take k l) = Some m2 -> release_ok m2 c') as Hside1.
      { intros k c' m2 Hk Hm2. apply (Hside (S k) c' m2); [done|]. simpl. rewrite E. done. }
      specialize (IH w1 m1 HW1 Hrun Hside1). destruct (exec_all a alloc w1 l); try done.
      destruct IH as (k & m2 & E2 & H2). exists (S k), m2. simpl. rewrite E. done. }
  assert (winv world0 ∅) as H0.
  { split; [intros p; by vm_compute|]. intros x. by simpl. }
  specialize (G l world0 ∅ H0 Hrun Hside). destruct (exec_all a alloc world0 l) as [w| |]; [|exact G..].
  destruct G as [HI HV].
  split.
  - intros x. unfold view. specialize (HV x). destruct (vars w !! x) as [[p r]|].
    + destruct HV as (t & Ht & ->). cbn [mbind option_bind]. unfold ent in Ht. destruct (hp w !! p); [|done]. simpl in Ht. by injection Ht as <-.
    + by rewrite HV.
  - intros p. specialize (HI p). split.
    + intros [o Ho]. rewrite Ho in HI. destruct (cnt_owned (vars w) p) as (x & r & E'); [tauto|]. by exists x, r.
    + intros (x & r & Hx). apply cnt_pos in Hx. destruct (hp w !! p); [done|]. lia.
Qed.

(** ... in particular an operation changes no variable but the one it is applied to. *)
Definition target (c : op) : nat :=
  match c with
  | Construct x _ _ | Copy x _ | Assign x _ | Destroy x | Reduce x _ | Subset x _ _ _ | Modify x _ | Init x _ | SetRoot x _ => x
  end.
Theorem C24_frame : forall (a : nat) (alloc : heap -> nat) (l : list op) (c : op) (m m' : values) w w' y,
  (forall h, h !! alloc h = None) ->
  v_run a ∅ l = Some m -> v_exec a m c = Some m' ->
  (forall k d m1, (l ++ [c]) !! k = Some d -> v_run a ∅ (take k (l ++ [c])) = Some m1 ->
     release_ok m1 d /\ (N.of_nat (size m1) + 3 < 2 ^ 32)%N) ->
  exec_all a alloc world0 l = Done w -> exec a alloc w c = Done w' ->
  y <> target c -> view w' y = view w y.
Proof.
  intros a alloc l c m m' w w' y Halloc Hm Hm' Hside Hw Hw' Hy.
  assert (forall l m0 m1, v_run a m0 l = Some m1 -> forall l', v_run a m0 (l ++ l') = v_run a m1 l') as Happ.
  { clear. induction l as [|c l IH]; intros m0 m1 H l'; simpl in *; [by injection H as <-|].
    destruct (v_exec a m0 c) as [m2|]; [|done]. cbn [mbind option_bind] in *. by apply IH. }
  destruct (C24_independent a alloc l m Halloc Hm) as (w1 & E1 & V1 & _).
  { intros k d m1 Hk Hm1. apply (Hside k d m1).
    - rewrite lookup_app_l; [done|]. by apply lookup_lt_Some in Hk.
    - rewrite take_app_le; [done|]. apply lookup_lt_Some in Hk. lia. }
  rewrite Hw in E1. injection E1 as <-.
  destruct (C24_independent a alloc (l ++ [c]) m' Halloc) as (w2 & E2 & V2 & _); [|done|].
  { rewrite (Happ l ∅ m Hm). simpl. by rewrite Hm'. }
  assert (forall l w0 w1, exec_all a alloc w0 l = Done w1 -> forall l', exec_all a alloc w0 (l ++ l') = exec_all a alloc w1 l') as Heapp.
  { clear. induction l as [|c l IH]; intros m0 m1 H l'; simpl in *; [by injection H as <-|].
    destruct (exec a alloc m0 c) as [m2| |]; [|done..]. cbn [obnd] in *. by apply IH. }
  rewrite (Heapp l world0 w Hw) in E2. simpl in E2. rewrite Hw' in E2. cbn [obnd] in E2. injection E2 as <-.
  rewrite V1, V2. clear -Hm' Hy.
  destruct c as [x rows f|x z|x z|x|x f|x z lv f|x f|x rows|x r]; simpl in Hm', Hy.
  - destruct (m !! x); [done|]. destruct (f _); [|done]. simpl in Hm'. injection Hm' as <-. by rewrite lookup_insert_ne.
  - destruct (m !! x); [done|]. destruct (m !! z); [|done]. simpl in Hm'. injection Hm' as <-. by rewrite lookup_insert_ne.
  - destruct (x =? z); [done|]. destruct (m !! x); [|done]. destruct (m !! z); [|done]. simpl in Hm'. injection Hm' as <-. by rewrite lookup_insert_ne.
  - destruct (m !! x); [|done]. simpl in Hm'. injection Hm' as <-. by rewrite lookup_delete_ne.
  - destruct (m !! x) as [[t r]|]; [|done]. simpl in Hm'. destruct (f t r) as [[[t1 t2] r']|]; [|done]. simpl in Hm'. injection Hm' as <-. by rewrite lookup_insert_ne.
  - destruct (m !! x) as [[t r]|]; [|done]. simpl in Hm'.
    destruct z as [z|]; [destruct (m !! z); [|done]|]; simpl in Hm'; (destruct (f true t r) as [[t2 r']|]; [|done]); simpl in Hm'; injection Hm' as <-; by rewrite lookup_insert_ne.
  - destruct (m !! x) as [[t r]|]; [|done]. simpl in Hm'. destruct (f t); [|done]. simpl in Hm'. injection Hm' as <-. by rewrite lookup_insert_ne.
  - destruct (m !! x) as [[t r]|]; [|done]. simpl in Hm'. injection Hm' as <-. by rewrite lookup_insert_ne.
  - destruct (m !! x) as [[t r']|]; [|done]. simpl in Hm'. injection Hm' as <-. by rewrite lookup_insert_ne.
Qed.

(** The side condition on subsetting holds of zddSubset, sequential or not: the result does not depend on whether the rows
    of the input are released on the way (the table is the only copy) or kept (it is shared). *)
Theorem C24_release_invisible : forall (d : dd) (sp : spec) (threads : nat) (sched : nat -> list (nat * nat)),
  dd_wf d -> tab d !! 0 = Some (terminal_row (d_ar d)) ->
  zdd_subset false d sp = zdd_subset true d sp /\
  zdd_subset_mp threads sched false d sp = zdd_subset_mp threads sched true d sp.
Proof.
  intros d sp threads sched Hd H0. unfold zdd_subset, zdd_subset_mp.
  split; apply (subset_release d Hd H0).
Qed.

(** A history with sharing, a reduction of a shared table and a subsetting of a table with itself. *)
Definition hist_sub (shared : bool) (t : table) (r : nid) : option (table * nid) :=
  d' ← zdd_subset shared (Dd 2 t r) (comb 3 1); Some (tab d', rt d').
Definition hist : list op :=
  [ Construct 0 4 (fun t => Some ([terminal_row 2; [[n0; n1]]; [[mk 1 0; n1]]; [[mk 2 0; mk 1 0]]], mk 3 0));
    Copy 1 0; Copy 2 1;
    Modify 1 (fun t => Some t);
    Subset 0 (Some 0) [3; 2; 1] hist_sub;
    Reduce 2 (fun t r => Some ([], [terminal_row 2], n1));
    Assign 1 2; Destroy 2; Subset 0 None [3; 2; 1] hist_sub ].
Definition hist_alloc (h : heap) : nat := fresh (dom (D := gset nat) h).
Lemma hist_alloc_fresh h : h !! hist_alloc h = None.
Proof. pose proof (is_fresh (dom (D := gset nat) h)) as X. by apply not_elem_of_dom in X. Qed.
(** the side conditions, computed *)
Global Instance nid_dec : EqDecision nid.
Proof. solve_decision. Defined.
Definition check (m1 : values) (c : op) : bool :=
  match c with
  | Subset x _ lv f =>
      match m1 !! x with Some (t, r) => bool_decide (f false t r = f true t r) && forallb (fun i => i <? length t) lv | None => true end
  | _ => true
  end && (N.of_nat (size m1) + 3 <? 2 ^ 32)%N.
Lemma check_ok m1 c : check m1 c = true -> release_ok m1 c /\ (N.of_nat (size m1) + 3 < 2 ^ 32)%N.
Proof.
  unfold check. intros [H1 H2]%andb_true_iff. apply N.ltb_lt in H2. split; [|done].
  destruct c; simpl; try done. intros t r E. rewrite E in H1. apply andb_true_iff in H1. destruct H1 as [H1 H3].
  apply bool_decide_eq_true in H1. split; [done|]. apply Forall_forall. intros i Hi. rewrite forallb_forall in H3.
  apply Nat.ltb_lt, H3. by apply elem_of_list_In.
Qed.
Example C24_case :
  (forall h, h !! hist_alloc h = None) /\
  match v_run 2 ∅ hist with Some m => m !! 1 = Some ([terminal_row 2], n1) /\ m !! 2 = None | None => False end /\
  (forall k c m1, hist !! k = Some c -> v_run 2 ∅ (take k hist) = Some m1 ->
     release_ok m1 c /\ (N.of_nat (size m1) + 3 < 2 ^ 32)%N) /\
  match exec_all 2 hist_alloc world0 hist with Done w => map_to_list (vars w) ≠ [] | _ => False end.
Proof.
  split. { intros h. apply hist_alloc_fresh. }
  split; [by vm_compute|].
  split; [|by vm_compute].
  intros k c m1 Hk Hm. apply check_ok.
  assert (match hist !! k, v_run 2 ∅ (take k hist) with Some c, Some m1 => check m1 c | _, _ => true end = true) as X.
  { clear. do 9 (destruct k as [|k]; [vm_compute; reflexivity|]). done. }
  rewrite Hk, Hm in X. done.
Qed.

(** Self-assignment (finding): x = x deletes the table of a sole owner and then uses it. *)
Theorem C24_self_assignment_refuted :
  exists a alloc l, (forall h, h !! alloc h = None) /\
    l = [Construct 0 1 (fun t => Some (t, n1)); Assign 0 0] /\ exec_all a alloc world0 l = Undef.
Proof.
  exists 2, hist_alloc. eexists. split; [|split; [reflexivity|by vm_compute]]. intros h. apply hist_alloc_fresh.
Qed.
(** ... while it is harmless when the table has another owner. *)
Example C24_self_assignment_shared :
  match exec_all 2 hist_alloc world0 [Construct 0 1 (fun t => Some (t, n1)); Copy 1 0; Assign 0 0] with
  | Done w => view w 0 = Some (new_table 2 1, n1) /\ view w 1 = Some (new_table 2 1, n1)
  | _ => False
  end.
Proof. by vm_compute. Qed.

Print Assumptions C24_independent.
Print Assumptions C24_safe.
Print Assumptions C24_frame.
Print Assumptions C24_release_invisible.
Print Assumptions C24_self_assignment_refuted.
