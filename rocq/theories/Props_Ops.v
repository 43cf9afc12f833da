(** C16-C21: operations on specifications.  All quantities are those of Sem.v:
    [bdd_sem]/[zdd_sem] are the Boolean function / family of a specification over levels 1..n. *)
From Verif Require Import Base Sem M_Ops P_Ops P_OpsC Ex.
Local Open Scope Z_scope.

(** C16 *)
Theorem C16_bdd_and : forall (s1 s2 : spec) (n : nat) (v : vec),
  spec_ok s1 -> spec_ok s2 -> ar s1 = 2%nat -> ar s2 = 2%nat ->
  (top_level s1 <= n)%nat -> (top_level s2 <= n)%nat -> vec_ok 2 v ->
  spec_ok (bdd_and s1 s2) /\ bdd_sem (bdd_and s1 s2) n v = bdd_sem s1 n v && bdd_sem s2 n v.
Proof. intros. split; [by apply and_ok|apply and_sem; try done; lia]. Qed.

Theorem C16_bdd_and_variadic : forall (s : spec) (ss : list spec) (n : nat) (v : vec),
  Forall (fun s => spec_ok s /\ ar s = 2%nat /\ (top_level s <= n)%nat) (s :: ss) -> vec_ok 2 v ->
  spec_ok (nary bdd_and s ss) /\
  bdd_sem (nary bdd_and s ss) n v = forallb (fun s => bdd_sem s n v) (s :: ss).
Proof. exact nary_and. Qed.

(** Node sharing survives the operation: equal_to of the result is again a congruence, its hash_code
    agrees on equal states, and the premises of C03 (on all states) carry over. *)
Theorem C16_bdd_and_sharing : forall s1 s2 : spec,
  spec_ok s1 -> spec_ok s2 -> ar s1 = 2%nat -> ar s2 = 2%nat ->
  (spec_congr s1 -> spec_congr s2 -> spec_congr (bdd_and s1 s2)) /\
  (hash_ok s1 -> hash_ok s2 -> hash_ok (bdd_and s1 s2)) /\
  (shareable s1 -> shareable s2 -> shareable (bdd_and s1 s2)).
Proof. intros. split_and!; intros; [by apply and_congr|by apply and_hash|by apply ops_shareable]. Qed.

Example C16_case :
  let s1 := comb 4 2 in let s2 := forced [4; 2] in
  (spec_ok s1 /\ ar s1 = 2%nat /\ spec_ok s2 /\ ar s2 = 2%nat) /\
  bdd_sem (bdd_and s1 s2) 4 (vec_of [0;1;0;1]%nat) = true /\
  bdd_sem (bdd_and s1 s2) 4 (vec_of [1;1;0;1]%nat) = false /\
  bdd_sem (bdd_and s1 s2) 4 (vec_of [0;1;1;0]%nat) = false /\
  bdd_sem (nary bdd_and s1 [s2; forced [4]]) 4 (vec_of [0;1;0;1]%nat) = true.
Proof. cbv zeta. split; [split_and!; first [apply comb_ok|by apply forced_ok|done]|]. split_and!; by vm_compute. Qed.

(** C17 *)
Theorem C17_bdd_or : forall (s1 s2 : spec) (n : nat) (v : vec),
  spec_ok s1 -> spec_ok s2 -> ar s1 = 2%nat -> ar s2 = 2%nat ->
  (top_level s1 <= n)%nat -> (top_level s2 <= n)%nat -> vec_ok 2 v ->
  spec_ok (bdd_or s1 s2) /\ bdd_sem (bdd_or s1 s2) n v = bdd_sem s1 n v || bdd_sem s2 n v.
Proof. intros. split; [by apply or_ok|apply or_sem; try done; lia]. Qed.

Theorem C17_bdd_or_variadic : forall (s : spec) (ss : list spec) (n : nat) (v : vec),
  Forall (fun s => spec_ok s /\ ar s = 2%nat /\ (top_level s <= n)%nat) (s :: ss) -> vec_ok 2 v ->
  spec_ok (nary bdd_or s ss) /\
  bdd_sem (nary bdd_or s ss) n v = existsb (fun s => bdd_sem s n v) (s :: ss).
Proof. exact nary_or. Qed.

(** Node sharing survives the operation: equal_to of the result is again a congruence, its hash_code
    agrees on equal states, and the premises of C03 (on all states) carry over. *)
Theorem C17_bdd_or_sharing : forall s1 s2 : spec,
  spec_ok s1 -> spec_ok s2 -> ar s1 = 2%nat -> ar s2 = 2%nat ->
  (spec_congr s1 -> spec_congr s2 -> spec_congr (bdd_or s1 s2)) /\
  (hash_ok s1 -> hash_ok s2 -> hash_ok (bdd_or s1 s2)) /\
  (shareable s1 -> shareable s2 -> shareable (bdd_or s1 s2)).
Proof. intros. split_and!; intros; [by apply or_congr|by apply or_hash|by apply ops_shareable]. Qed.

Example C17_case :
  let s1 := comb 4 2 in let s2 := forced [4; 2] in
  (spec_ok s1 /\ ar s1 = 2%nat /\ spec_ok s2 /\ ar s2 = 2%nat) /\
  bdd_sem (bdd_or s1 s2) 4 (vec_of [1;1;0;1]%nat) = true /\
  bdd_sem (bdd_or s1 s2) 4 (vec_of [1;0;1;0]%nat) = true /\
  bdd_sem (bdd_or s1 s2) 4 (vec_of [1;1;1;0]%nat) = false.
Proof. cbv zeta. split; [split_and!; first [apply comb_ok|by apply forced_ok|done]|]. split_and!; by vm_compute. Qed.

(** C18.  [one_code]: the 1-terminal is reported as -1, as documented. *)
Theorem C18_zdd_intersection : forall (s1 s2 : spec) (n : nat) (v : vec),
  spec_ok s1 -> spec_ok s2 -> one_code s1 -> one_code s2 -> ar s1 = 2%nat -> ar s2 = 2%nat ->
  (top_level s1 <= n)%nat -> (top_level s2 <= n)%nat -> vec_ok 2 v ->
  (spec_ok (zdd_intersection s1 s2) /\ one_code (zdd_intersection s1 s2)) /\
  zdd_sem (zdd_intersection s1 s2) n v = zdd_sem s1 n v && zdd_sem s2 n v.
Proof.
  intros. split_and!; [by apply inter_ok|by apply inter_one_code|].
  apply inter_sem; try done; lia.
Qed.

Theorem C18_zdd_intersection_variadic : forall (s : spec) (ss : list spec) (n : nat) (v : vec),
  Forall (fun s => spec_ok s /\ one_code s /\ ar s = 2%nat /\ (top_level s <= n)%nat) (s :: ss) -> vec_ok 2 v ->
  spec_ok (nary zdd_intersection s ss) /\
  zdd_sem (nary zdd_intersection s ss) n v = forallb (fun s => zdd_sem s n v) (s :: ss).
Proof. exact nary_inter. Qed.

(** Node sharing survives the operation: equal_to of the result is again a congruence, its hash_code
    agrees on equal states, and the premises of C03 (on all states) carry over. *)
Theorem C18_zdd_intersection_sharing : forall s1 s2 : spec,
  spec_ok s1 -> spec_ok s2 -> one_code s1 -> one_code s2 -> ar s1 = 2%nat -> ar s2 = 2%nat ->
  (spec_congr s1 -> spec_congr s2 -> spec_congr (zdd_intersection s1 s2)) /\
  (hash_ok s1 -> hash_ok s2 -> hash_ok (zdd_intersection s1 s2)) /\
  (shareable s1 -> shareable s2 -> shareable (zdd_intersection s1 s2)).
Proof. intros. split_and!; intros; [by apply inter_congr|by apply inter_hash|by apply ops_shareable]. Qed.

Example C18_case :
  let s1 := comb 4 2 in let s2 := forced [4; 2] in
  (spec_ok s1 /\ one_code s1 /\ spec_ok s2 /\ one_code s2) /\
  zdd_sem (zdd_intersection s1 s2) 4 (vec_of [0;1;0;1]%nat) = true /\
  zdd_sem (zdd_intersection s1 s2) 4 (vec_of [0;1;1;0]%nat) = false /\
  zdd_sem s1 4 (vec_of [0;1;1;0]%nat) = true.
Proof.
  cbv zeta. split; [split_and!; first [apply comb_ok|apply comb_one_code|by apply forced_ok|by apply forced_one_code]|].
  split_and!; by vm_compute.
Qed.

(** C19 *)
Theorem C19_zdd_union : forall (s1 s2 : spec) (n : nat) (v : vec),
  spec_ok s1 -> spec_ok s2 -> ar s1 = 2%nat -> ar s2 = 2%nat ->
  (top_level s1 <= n)%nat -> (top_level s2 <= n)%nat -> vec_ok 2 v ->
  spec_ok (zdd_union s1 s2) /\ zdd_sem (zdd_union s1 s2) n v = zdd_sem s1 n v || zdd_sem s2 n v.
Proof. intros. split; [by apply union_ok|apply union_sem; try done; lia]. Qed.

Theorem C19_zdd_union_variadic : forall (s : spec) (ss : list spec) (n : nat) (v : vec),
  Forall (fun s => spec_ok s /\ ar s = 2%nat /\ (top_level s <= n)%nat) (s :: ss) -> vec_ok 2 v ->
  spec_ok (nary zdd_union s ss) /\
  zdd_sem (nary zdd_union s ss) n v = existsb (fun s => zdd_sem s n v) (s :: ss).
Proof. exact nary_union. Qed.

(** Node sharing survives the operation: equal_to of the result is again a congruence, its hash_code
    agrees on equal states, and the premises of C03 (on all states) carry over. *)
Theorem C19_zdd_union_sharing : forall s1 s2 : spec,
  spec_ok s1 -> spec_ok s2 -> ar s1 = 2%nat -> ar s2 = 2%nat ->
  (spec_congr s1 -> spec_congr s2 -> spec_congr (zdd_union s1 s2)) /\
  (hash_ok s1 -> hash_ok s2 -> hash_ok (zdd_union s1 s2)) /\
  (shareable s1 -> shareable s2 -> shareable (zdd_union s1 s2)).
Proof. intros. split_and!; intros; [by apply union_congr|by apply union_hash|by apply ops_shareable]. Qed.

Example C19_case :
  let s1 := comb 4 2 in let s2 := forced [3; 2; 1] in
  (spec_ok s1 /\ ar s1 = 2%nat /\ spec_ok s2 /\ ar s2 = 2%nat) /\
  zdd_sem (zdd_union s1 s2) 4 (vec_of [1;1;1;0]%nat) = true /\
  zdd_sem (zdd_union s1 s2) 4 (vec_of [1;1;1;1]%nat) = false /\
  zdd_sem (zdd_union s1 s2) 4 (vec_of [1;0;1;0]%nat) = true.
Proof. cbv zeta. split; [split_and!; first [apply comb_ok|by apply forced_ok|done]|]. split_and!; by vm_compute. Qed.

(** C20: same meaning; and no node of the new specification is redundant in the old one. *)
Theorem C20_bdd_lookahead : forall (s : spec) (n : nat) (v : vec),
  spec_ok s -> (top_level s <= n)%nat -> vec_ok (ar s) v ->
  bdd_sem (bdd_lookahead s) n v = bdd_sem s n v.
Proof. intros. by apply bdd_lookahead_sem. Qed.

Theorem C20_zdd_lookahead : forall (s : spec) (n : nat) (v : vec),
  spec_ok s -> (top_level s <= n)%nat -> vec_ok (ar s) v ->
  zdd_sem (zdd_lookahead s) n v = zdd_sem s n v.
Proof. intros. by apply zdd_lookahead_sem. Qed.

(** The contract is kept when equal_to is a congruence. *)
Theorem C20_lookahead_contract : forall (s : spec), spec_ok s -> spec_congr s ->
  (spec_ok (bdd_lookahead s) /\ spec_congr (bdd_lookahead s)) /\
  (spec_ok (zdd_lookahead s) /\ spec_congr (zdd_lookahead s)).
Proof.
  intros. split_and!; [by apply bdd_lookahead_ok|by apply bdd_lookahead_congr
    |by apply zdd_lookahead_ok|by apply zdd_lookahead_congr].
Qed.

Theorem C20_lookahead_sharing : forall s : spec, spec_ok s ->
  (hash_ok s -> hash_ok (bdd_lookahead s) /\ hash_ok (zdd_lookahead s)) /\
  (shareable s -> shareable (bdd_lookahead s) /\ shareable (zdd_lookahead s)).
Proof. intros s Hok. split; intros H; [|done]. split; [by apply bdd_lookahead_hash|by apply zdd_lookahead_hash]. Qed.

(** What lookahead is for: every reachable node is one that the original specification does not make
    redundant: some branch differs (BDD), some non-zero branch does not go to 0 (ZDD). *)
Theorem C20_lookahead_skips : forall (s : spec) (l : Z) (p : St s), spec_ok s ->
  (reach (bdd_lookahead s) l p ->
     reach s l p /\
     exists b, (0 < b < ar s)%nat /\
       let r0 := get_child s p l 0%nat in let rb := get_child s p l b in
       fst r0 <> fst rb \/ 0 < fst r0 /\ equal_to s (fst r0) (snd r0) (snd rb) = false) /\
  (reach (zdd_lookahead s) l p ->
     reach s l p /\ exists b, (0 < b < ar s)%nat /\ fst (get_child s p l b) <> 0).
Proof.
  intros s l p Hok. split; intros R.
  - apply bdd_lookahead_reach in R as [R N]; [|done]. split; [done|].
    unfold bdd_redundant in N. cbv zeta in N.
    rewrite <- not_true_iff_false, forallb_forall in N.
    assert (exists b, In b (seq 1 (ar s - 1)) /\
      ((fst (get_child s p l 0) =? fst (get_child s p l b)) &&
      ((fst (get_child s p l 0) <=? 0) || equal_to s (fst (get_child s p l 0)) (snd (get_child s p l 0)) (snd (get_child s p l b)))) = false)
      as (b & Hb & E).
    { apply not_true_iff_false in N || idtac. clear -N.
      induction (seq 1 (ar s - 1)) as [|x xs IH]; [exfalso; apply N; done|].
      match type of N with context [(fun x => @?f x = true)] => idtac | _ => idtac end.
      destruct ((fst (get_child s p l 0) =? fst (get_child s p l x)) &&
      ((fst (get_child s p l 0) <=? 0) || equal_to s (fst (get_child s p l 0)) (snd (get_child s p l 0)) (snd (get_child s p l x)))) eqn:E.
      - destruct IH as (b & Hb & Eb).
        + intros G. apply N. intros y [->|Hy]; [done|by apply G].
        + exists b. split; [by right|done].
      - exists x. split; [by left|done]. }
    apply in_seq in Hb. exists b. split; [lia|].
    apply andb_false_iff in E as [E|E]; [left; by apply Z.eqb_neq|].
    apply orb_false_iff in E as [E1 E2]. right. split; [apply Z.leb_gt in E1; lia|done].
  - apply zdd_lookahead_reach in R as [R N]; [|done]. split; [done|].
    unfold zdd_redundant in N. rewrite <- not_true_iff_false, forallb_forall in N.
    assert (exists b, In b (seq 1 (ar s - 1)) /\ (fst (get_child s p l b) =? 0) = false) as (b & Hb & E).
    { clear -N. induction (seq 1 (ar s - 1)) as [|x xs IH]; [exfalso; apply N; done|].
      destruct (fst (get_child s p l x) =? 0) eqn:E.
      - destruct IH as (b & Hb & Eb).
        + intros G. apply N. intros y [->|Hy]; [done|by apply G].
        + exists b. split; [by right|done].
      - exists x. split; [by left|done]. }
    apply in_seq in Hb. exists b. split; [lia|]. by apply Z.eqb_neq.
Qed.

Example C20_case :
  let s := forced [4; 2] in let u := zdd_unreduction s 4 in
  (spec_ok u /\ (top_level u <= 4)%nat) /\
  top_level u = 4%nat /\
  get_child u (4, [4; 2]) 4 1%nat = (3, (2, [2])) /\
  (* level 3 is a node with a dead 1-branch in u; lookahead skips it *)
  get_child (zdd_lookahead u) (4, [4; 2]) 4 1%nat = (2, (2, [2])) /\
  zdd_sem (zdd_lookahead u) 4 (vec_of [0;1;0;1]%nat) = true /\
  zdd_sem (zdd_lookahead u) 4 (vec_of [0;1;1;1]%nat) = false.
Proof.
  cbv zeta. split; [split; [apply un_ok; by apply forced_ok|vm_compute; lia]|]. split_and!; by vm_compute.
Qed.

(** C21: the unreduced specification keeps the contract, skips no level except to the 0-terminal, and
    its path semantics (both readings) over n levels is the BDD / ZDD semantics of s. *)
Theorem C21_unreduction : forall (s : spec) (zdd : bool) (n : nat),
  spec_ok s -> (top_level s <= n)%nat ->
  let u := if zdd then zdd_unreduction s (Z.of_nat n) else bdd_unreduction s (Z.of_nat n) in
  spec_ok u /\
  (fst (get_root u) = 0 \/ (0 < n)%nat /\ fst (get_root u) = Z.of_nat n \/ n = 0%nat /\ fst (get_root u) < 0) /\
  (forall l p b, reach u l p -> (b < ar u)%nat ->
     let c := fst (get_child u p l b) in c = 0 \/ 1 < l /\ c = l - 1 \/ l = 1 /\ c < 0) /\
  (forall v, vec_ok (ar s) v ->
     let m := if zdd then zdd_sem s n v else bdd_sem s n v in
     bdd_sem u n v = m /\ zdd_sem u n v = m).
Proof.
  intros s zdd n Hok Hn u.
  assert (u = unreduction s zdd (Z.of_nat n)) as -> by (unfold u; by destruct zdd).
  assert (un_top s (Z.of_nat n) = n) as T by (unfold un_top, top_level in *; lia).
  split_and!.
  - by apply un_ok.
  - destruct (un_root s (Z.of_nat n)) as [[E E1]|(NE & E & [(Ht & E1 & I)|(Ht & E1 & E2)])];
      cbn [get_root unreduction]; [by left| |].
    + right. left. rewrite T in *. split; [lia|]. etrans; [exact E1|done].
    + right. right. rewrite T in *. split; [lia|]. change (fst (unred_root s (Z.of_nat n)) < 0). by rewrite E1.
  - intros l p b R Hb. by apply un_noskip.
  - intros v Hv. destruct (un_sem s Hok zdd (Z.of_nat n) v Hv) as [H1 H2].
    rewrite T in *. unfold src_eval in *. unfold bdd_sem, zdd_sem in *. by destruct zdd.
Qed.

Theorem C21_unreduction_sharing : forall (s : spec) (zdd : bool) (nv : Z), spec_ok s ->
  let u := if zdd then zdd_unreduction s nv else bdd_unreduction s nv in
  (spec_congr s -> spec_congr u) /\ (hash_ok s -> hash_ok u) /\ (shareable s -> shareable u).
Proof.
  intros s zdd nv Hok u. assert (u = unreduction s zdd nv) as -> by (unfold u; by destruct zdd).
  split_and!; intros; [by apply un_congr|by apply un_hash|by apply un_shareable].
Qed.

Example C21_case :
  let s := forced [4; 2] in
  (spec_ok s /\ (top_level s <= 5)%nat) /\
  bdd_sem (bdd_unreduction s 5) 5 (vec_of [1;1;0;1;1]%nat) = true /\
  zdd_sem (bdd_unreduction s 5) 5 (vec_of [1;1;0;1;1]%nat) = true /\
  zdd_sem (zdd_unreduction s 5) 5 (vec_of [1;1;0;1;1]%nat) = false /\
  bdd_sem (zdd_unreduction s 5) 5 (vec_of [0;1;0;1;0]%nat) = true.
Proof.
  cbv zeta. split; [split; [by apply forced_ok|vm_compute; lia]|]. split_and!; by vm_compute.
Qed.

Print Assumptions C16_bdd_and_variadic.
Print Assumptions C17_bdd_or_variadic.
Print Assumptions C18_zdd_intersection_variadic.
Print Assumptions C19_zdd_union_variadic.
Print Assumptions C20_lookahead_skips.
Print Assumptions C21_unreduction.

Example C16_C19_sharing_case : shareable (comb 4 2) /\ spec_congr (comb 4 2) /\ hash_ok (comb 4 2) /\
  equal_to (bdd_and (comb 4 2) (comb 4 3)) 2 (@BState (comb 4 2) (comb 4 3) 2 1%nat 2 2%nat) (@BState (comb 4 2) (comb 4 3) 2 1%nat 2 2%nat) = true.
Proof.
  assert (shareable (comb 4 2)) as H.
  { split; intros i s s'; simpl; [apply Nat.eqb_sym|]. intros E. apply Nat.eqb_eq in E. by subst. }
  split_and!; [done|apply comb_congr| |by vm_compute]. intros l s s' _ _. apply H.
Qed.
Print Assumptions C16_bdd_and_sharing.
Print Assumptions C18_zdd_intersection_sharing.
Print Assumptions C20_lookahead_sharing.
Print Assumptions C21_unreduction_sharing.
