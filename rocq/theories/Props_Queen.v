(** C53: NQueenZdd, NRookZdd and the program ddqueens. *)
From Verif Require Import Base Sem Ex M_Table Tree M_Engine M_Builder P_Builder M_Reducer M_Subset M_Eval S_Eval S_Big M_Queen S_Queen P_Queen P_Queen2 P_Queen3
  M_Equal Props_Reduce S_Api P_Api Props_Api.
Local Open Scope nat_scope.

(** On a board of up to 31 x 31 squares, NQueenZdd(n) (rook = false) and NRookZdd(n) (rook = true) accept exactly the
    placements of n pieces that do not attack each other. *)
Theorem C53_placements : forall (n : nat) (rook : bool) (v : vec), 1 <= n <= 31 ->
  zdd_sem (queen_spec (queens_all n rook)) (n * n) v = true <-> peaceful n rook v.
Proof. intros n rook v H. apply (queens_sem (queens_all n rook)); cbn [queens_all q_top q_n q_take]; lia || done. Qed.

(** With firstCol, exactly those that have a piece in the top row, firstCol squares from its beginning. *)
Theorem C53_first_column : forall (n firstCol : nat) (rook : bool) (v : vec), 1 <= n <= 31 -> firstCol < n ->
  zdd_sem (queen_spec (queens_first n firstCol rook)) (n * n) v = true <-> peaceful n rook v /\ on n v (n - 1) (n - 1 - firstCol).
Proof.
  intros n fc rook v H Hf. apply (first_sem (queens_first n fc rook) ltac:(cbn; lia) v (n - 1 - fc)); cbn [queens_first q_top q_n q_take]; [lia| |done].
  assert (n * n = (n - 1) * n + n) as -> by nia. generalize ((n - 1) * n). intros. lia.
Qed.

Lemma valid_all n rook : 1 <= n -> let Q := queens_all n rook in
  (q_take Q = false /\ q_top Q = q_n Q * q_n Q) \/ (q_take Q = true /\ exists j, j < q_n Q /\ q_top Q = (q_n Q - 1) * q_n Q + j + 1).
Proof. by left. Qed.
Lemma valid_first n fc rook : 1 <= n -> fc < n -> let Q := queens_first n fc rook in
  (q_take Q = false /\ q_top Q = q_n Q * q_n Q) \/ (q_take Q = true /\ exists j, j < q_n Q /\ q_top Q = (q_n Q - 1) * q_n Q + j + 1).
Proof. intros H Hf Q. right. split; [done|]. exists (n - 1 - fc). cbn [Q queens_first q_top q_n q_take]. assert (n * n = (n - 1) * n + n) as -> by nia. split; [lia|]. generalize ((n - 1) * n). intros. lia. Qed.

(** Every array access is in range, every shift is below 32, every search for the next square ends. *)
Theorem C53_memory_safe : forall (n : nat) (rook : bool) (Q : queens), 1 <= n <= 31 ->
  (Q = queens_all n rook \/ exists firstCol, firstCol < n /\ Q = queens_first n firstCol rook) ->
  is_Some (q_root Q) /\
  forall l s b, reach (queen_spec Q) l s -> is_Some (q_child Q s (Z.to_nat l) (negb (b =? 0))).
Proof.
  intros n rook Q H HQ. assert (q_n Q = n) as En by (destruct HQ as [->|(? & _ & ->)]; done).
  assert ((q_take Q = false /\ q_top Q = q_n Q * q_n Q) \/ (q_take Q = true /\ exists j, j < q_n Q /\ q_top Q = (q_n Q - 1) * q_n Q + j + 1)) as Ht.
  { destruct HQ as [->|(fc & Hf & ->)]; [apply valid_all; lia|by apply valid_first; lia]. }
  split; [rewrite (root_eq Q ltac:(lia)); by eexists|]. intros l s b Hr. apply (reach_good Q ltac:(lia) ltac:(lia) Ht) in Hr.
  destruct (good_child Q ltac:(lia) ltac:(lia) Ht l s (negb (b =? 0)) Hr) as (code & s' & -> & _). by eexists.
Qed.

(** Both meet the contract of specifications. *)
Theorem C53_contract : forall (n : nat) (rook : bool) (Q : queens), 1 <= n <= 31 ->
  (Q = queens_all n rook \/ exists firstCol, firstCol < n /\ Q = queens_first n firstCol rook) ->
  let sp := queen_spec Q in spec_ok sp /\ spec_congr sp /\ one_code sp /\ shareable sp.
Proof.
  intros n rook Q H HQ. assert (q_n Q = n) as En by (destruct HQ as [->|(? & _ & ->)]; done).
  apply queen_contract; [lia|lia|]. destruct HQ as [->|(fc & Hf & ->)]; [apply valid_all; lia|by apply valid_first; lia].
Qed.

Lemma queens_api n rook : 1 <= n <= 31 -> api_spec 2 (n * n) AZdd (queen_spec (queens_all n rook)) (means AZdd (queen_spec (queens_all n rook)) (n * n)).
Proof.
  intros H. destruct (C53_contract n rook (queens_all n rook) H ltac:(by left)) as (H1 & H2 & H3 & _). apply as_user; [done|done|done|done|].
  unfold top_level. cbn [queen_spec get_root]. rewrite (root_eq (queens_all n rook)) by (cbn; lia). cbn [default id fst]. rewrite Nat2Z.id. done.
Qed.

(** The program (ddqueens.cpp 176-191): construct, sequentially or in parallel, and zddReduce; or, with the option
    -rook, construct the rooks, zddReduce, zddSubset with the queens and zddReduce.  Both ways give the diagram of
    the n-queens placements, both give equal diagrams, and zddCardinality prints the number of placements. *)
Inductive ddqueens (n : nat) : dd -> Prop :=
| dq_direct d d' : constructed (queen_spec (queens_all n false)) d -> reduction false true d d' -> ddqueens n d'
| dq_rook d d1 d2 d3 : constructed (queen_spec (queens_all n true)) d -> reduction false true d d1 ->
    subsetted d1 (queen_spec (queens_all n false)) d2 -> reduction false true d2 d3 -> ddqueens n d3.

Lemma queen_rook n v : peaceful n false v -> peaceful n true v.
Proof.
  intros (qs & H1 & H2 & H3 & H4). exists qs. split; [done|]. split; [done|]. split; [done|].
  intros i j i' j' A B C D. apply (H4 i j i' j' A B C). by left.
Qed.
(** what the program computed is an API program with an intermediate result that means the placements *)
Lemma ddqueens_api n d : 1 <= n <= 31 -> ddqueens n d ->
  exists d0 P, api_dd 2 (n * n) AZdd d0 P /\ reduction false true d0 d /\ forall v, vec_ok 2 v -> P v = true <-> peaceful n false v.
Proof.
  intros H [d0 d' HC HR|d0 d1 d2 d3 HC HR HS HR'].
  - exists d0. eexists. split; [eapply ad_construct; [by apply queens_api|done]|]. split; [done|]. intros v _. by apply C53_placements.
  - exists d2. eexists. split; [eapply ad_subset; [eapply ad_reduce; [eapply ad_construct; [by apply queens_api|done]|done]|by apply (queens_api n false)|done]|].
    split; [done|]. intros v _. cbn [means]. rewrite andb_true_iff, (C53_placements n true v H), (C53_placements n false v H).
    split; [by intros [_ ?]|]. intros HP. split; [by apply queen_rook|done].
Qed.
Theorem C53_program : forall n, 1 <= n <= 31 ->
  (exists d, ddqueens n d) /\
  (forall d, ddqueens n d ->
     (forall v, vec_ok 2 v -> zdd_sem (dd_spec d) (n * n) v = true <-> peaceful n false v) /\
     (forall d', ddqueens n d' -> dd_eq false d d' = Some true) /\
     forall junk, exists ds (L : list (list nat)), zdd_cardinality (max_words 2) junk d = Some ds /\ decimal ds (N.of_nat (length L)) /\
       NoDup L /\ forall l, l ∈ L <-> length l = n * n /\ Forall (fun x => x < 2) l /\ peaceful n false (vec_of_list l)).
Proof.
  intros n H. split.
  - destruct (C54_progress 2 (n * n) ltac:(lia)) as (PS & PD & _).
    pose proof (queens_api n false H) as HA. destruct (PS _ _ _ HA) as [[d E] _].
    assert (api_dd 2 (n * n) AZdd d _) as HD by (eapply ad_construct; [exact HA|by apply con_sequential]).
    destruct (PD _ _ _ HD) as (_ & ([d' E'] & _) & _). exists d'. eapply dq_direct; [by apply con_sequential|by apply red_sequential].
  - intros d Hd. destruct (ddqueens_api n d H Hd) as (d0 & P & HA & HR & HP).
    assert (api_dd 2 (n * n) AZdd d P) as HD by (by eapply ad_reduce).
    destruct (C54_meaning 2 (n * n) AZdd d P ltac:(lia) HD) as (_ & _ & _ & HM). split_and!.
    + intros v Hv. cbn [means] in HM. rewrite HM by done. by apply HP.
    + intros d' Hd'. destruct (ddqueens_api n d' H Hd') as (d0' & P' & HA' & HR' & HP').
      destruct (C54_canonical 2 (n * n) AZdd false d0 d0' P P' d d' ltac:(lia) HA HA' HR HR' ltac:(done)) as (b & -> & Hb).
      f_equal. apply Hb. intros v Hv. apply eq_true_iff_eq. rewrite HP, HP' by done. done.
    + intros junk. destruct (C54_count 2 (n * n) d P junk ltac:(lia) HD) as (ds & N & E & HN & L & H1 & -> & H3). exists ds, L.
      split_and!; try done. intros l. rewrite H3. split; intros (Q1 & Q2 & Q3); (split; [done|]); (split; [done|]); apply HP; try done.
      all: intros i; unfold vec_of_list; destruct (le_lt_dec (length l) (i - 1)) as [Hi|Hi]; [rewrite nth_overflow by done; lia|];
        rewrite Forall_forall in Q2; apply Q2, elem_of_list_In, nth_In; done.
Qed.

(** From 32 on the code shifts a 32-bit word by 32 or more places, which C++ leaves undefined; nothing checks n. *)
Theorem C53_large_board_refuted : forall (n : nat) (rook : bool), 32 <= n -> q_root (queens_all n rook) = None.
Proof. intros n rook H. unfold q_root. cbn [queens_all q_n]. by rewrite (proj2 (Nat.ltb_ge n 32)). Qed.

(** 4 x 4: two placements of queens, 24 of rooks; one of the former has a queen on the second square of the top row *)
Example C53_case :
  (exists d d', constructed (queen_spec (queens_all 4 false)) d /\ reduction false true d d' /\ ddqueens 4 d' /\
     zdd_cardinality (max_words 2) (fun _ => 7%N) d' = Some [2]%N) /\
  (exists d, constructed (queen_spec (queens_all 4 true)) d /\ zdd_cardinality (max_words 2) (fun _ => 7%N) d = Some [2; 4]%N) /\
  peaceful 4 false (vec_of_list [0;0;1;0; 1;0;0;0; 0;0;0;1; 0;1;0;0]) /\
  zdd_sem (queen_spec (queens_first 4 2 false)) 16 (vec_of_list [0;0;1;0; 1;0;0;0; 0;0;0;1; 0;1;0;0]) = true /\
  zdd_sem (queen_spec (queens_first 4 1 false)) 16 (vec_of_list [0;0;1;0; 1;0;0;0; 0;0;0;1; 0;1;0;0]) = false.
Proof.
  split; [|split; [|split; [|split; [vm_compute; reflexivity|vm_compute; reflexivity]]]].
  - assert (exists x, (d ← construct_dd (queen_spec (queens_all 4 false)); d' ← reduce_seq false true d; zdd_cardinality (max_words 2) (fun _ => 7%N) d') = Some x /\ x = [2]%N)
      as (x & E & ->) by (eexists; split; vm_compute; reflexivity).
    destruct (construct_dd _) as [d|] eqn:E1; [|done]. cbn [mbind option_bind] in E. destruct (reduce_seq _ _ d) as [d'|] eqn:E2; [|done]. cbn [mbind option_bind] in E.
    assert (constructed (queen_spec (queens_all 4 false)) d) as HC by (apply con_sequential; exact E1).
    assert (reduction false true d d') as HR by (apply red_sequential; exact E2).
    exists d, d'. split; [exact HC|]. split; [exact HR|]. split; [eapply dq_direct; [exact HC|exact HR]|exact E].
  - assert (exists x, (d ← construct_dd (queen_spec (queens_all 4 true)); zdd_cardinality (max_words 2) (fun _ => 7%N) d) = Some x /\ x = [2; 4]%N)
      as (x & E & ->) by (eexists; split; vm_compute; reflexivity).
    destruct (construct_dd _) as [d|] eqn:E1; [|done]. exists d. split; [apply con_sequential; exact E1|exact E].
  - apply (C53_placements 4 false); [lia|vm_compute; reflexivity].
Qed.

Print Assumptions C53_placements.
Print Assumptions C53_first_column.
Print Assumptions C53_memory_safe.
Print Assumptions C53_contract.
Print Assumptions C53_program.
Print Assumptions C53_large_board_refuted.
