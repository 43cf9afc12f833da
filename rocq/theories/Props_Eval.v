(** C12 evaluate, C13 zddCardinality, C14 bddCardinality. *)
From Verif Require Import Base Sem Ex M_Table Tree M_Big S_Big P_Big M_Eval S_Eval P_Eval P_Count P_Card P_Wfb.
Local Open Scope nat_scope.

(** ** C12 *)
(** The bottom-up value exists and is unique. *)
Theorem C12_value_unique {T} (term : nat -> T) node t f v v' :
  value_of term node t f v -> value_of term node t f v' -> v = v'.
Proof.
  intros H. revert v'. induction H as [f Hf|f p vs Hf Hp Hl HL _ IH]; intros v' H'; inversion H' as [f' Hf'|f' p' vs' Hf' Hp' Hl' HL' HH]; subst; try lia; [done|].
  assert (p' = p) as -> by congruence. f_equal. apply list_eq_same_length with (length vs); [congruence..|].
  intros b x x' Hb Hx Hx'. assert (is_Some (p !! b)) as [g Hg] by (apply lookup_lt_is_Some; lia).
  pose proof (HL b g x Hg Hx) as E1. pose proof (HL' b g x' Hg Hx') as E2.
  pose proof (IH b g x Hg Hx _ (HH b g x' Hg Hx')) as E3. destruct x, x'; simpl in *; congruence.
Qed.

Section fold.
  Context (d : dd) (Hd : dd_wf d) (ev : evaluator) (I : ES ev -> Prop) (e0 : ES ev) term node val
    (Hb : behaves ev (row (rt d)) I e0 term node val).
  Let Q (r c : nat) (v : ET ev) : Prop := value_of term node (tab d) (mk r c) v.

  Local Lemma fold_node : forall e i j p vs, I e -> 0 < i <= row (rt d) -> tget (tab d) (mk i j) = Some p ->
    Forall2 (fun g x => snd x = row g /\ row g < i /\ Q (row g) (col g) (fst x)) p vs ->
    exists e' v, e_node ev e i vs = Some (e', v) /\ I e' /\ Q i j v.
  Proof.
    intros e i j p vs He Hi Hp HF. destruct (bh_node _ _ _ _ _ _ _ Hb e i vs He) as (e' & E & He').
    exists e', (node i vs). split_and!; try done. change i with (row (mk i j)) at 2. econstructor; [simpl; lia|done|by rewrite (Forall2_length _ _ _ HF)| |].
    all: intros b g x Hg Hx; destruct (Forall2_lookup_lr _ _ _ _ _ _ HF Hg Hx) as (E1 & _ & E2); try exact E1.
    clear -E2. inversion E2 as [f Hf|f p vs Hf Hp Hl HH]; subst; cbn [row col mk] in *.
    - change (col g) with (col g). by constructor.
    - econstructor; try done.
  Qed.

  Local Lemma fold_root v : Q (row (rt d)) (col (rt d)) v -> value_of term node (tab d) (rt d) v.
  Proof.
    intros E2. inversion E2 as [f Hf|f p vs Hf Hp Hl HH]; subst; cbn [row col mk] in *.
    - by constructor.
    - econstructor; try done.
  Qed.
  Local Lemma fold_term : forall e j, I e -> j < 2 -> exists e' v, e_term ev e j = Some (e', v) /\ I e' /\ Q 0 j v.
  Proof.
    intros e j He _. destruct (bh_term _ _ _ _ _ _ _ Hb e j He) as (e' & E & He'). exists e', (term j). split_and!; try done.
    change j with (col (mk 0 j)) at 2. by constructor.
  Qed.

  (** evaluate(E) is getValue of the bottom-up value of the root; no discarded value is read *)
  Theorem C12_evaluate : exists v, value_of term node (tab d) (rt d) v /\ evaluate ev e0 d = Some (val v).
  Proof.
    destruct (evaluate_ok ev d Hd I Q e0 (bh_init _ _ _ _ _ _ _ Hb) fold_term fold_node (bh_destruct _ _ _ _ _ _ _ Hb)) as (e & v & He & Hv & E).
    exists v. split; [by apply fold_root|]. rewrite E. by apply (bh_value _ _ _ _ _ _ _ Hb).
  Qed.

  (** the same with any number of threads under any schedule *)
  Theorem C12_evaluate_parallel nt asg ord : eval_sched_ok nt d asg ord ->
    exists v, value_of term node (tab d) (rt d) v /\ evaluate_mp ev nt asg ord e0 d = Some (val v).
  Proof.
    intros [H1 H2 H3].
    destruct (evaluate_mp_ok ev d Hd I Q e0 (bh_init _ _ _ _ _ _ _ Hb) fold_term fold_node (bh_destruct _ _ _ _ _ _ _ Hb) nt asg ord) as (e & v & He & Hv & E); try done.
    exists v. split; [by apply fold_root|]. rewrite E. by apply (bh_value _ _ _ _ _ _ _ Hb).
  Qed.
End fold.

(** ** C13 *)
(** The scratch numbers have room for the bound ARITY^topLevel on all counts. *)
Definition room_for (a n cap : nat) : Prop := (N.of_nat a ^ N.of_nat n < 2 ^ (63 * N.of_nat cap))%N.

(** The code's formula ceil(topLevel * log2(ARITY) / 63) + 1, evaluated exactly, gives that room. *)
Theorem C13_capacity a n : 0 < a -> room_for a n (max_words a n).
Proof. intros Ha. by apply capacity_ok. Qed.

Lemma cnt_zdd d n T : dd_wf d -> rep (tab d) (rt d) T -> row (rt d) <= n ->
  cnt (d_ar d) n (fun l => zdd_sem (dd_spec d) n (vec_of_list l)) = zcount T.
Proof.
  intros Hd HT Hn. assert (0 < d_ar d) as Ha by apply Hd.
  rewrite <- (cnt_tzdd (d_ar d) n T Ha); [|eapply rep_tok; [apply Hd|exact HT]|by rewrite (rep_lev _ _ _ HT)].
  apply cnt_ext. intros l Hl HF. apply dd_zdd_sem; try done. intros i. unfold vec_of_list.
  destruct (le_lt_dec (length l) (i - 1)) as [Hi|Hi]; [by rewrite nth_overflow|]. rewrite Forall_forall in HF. apply HF, elem_of_list_In, nth_In. done.
Qed.
Lemma cnt_bdd d n T : dd_wf d -> rep (tab d) (rt d) T -> row (rt d) <= n ->
  cnt (d_ar d) n (fun l => bdd_sem (dd_spec d) n (vec_of_list l)) = (N.of_nat (d_ar d) ^ N.of_nat (n - row (rt d)) * bcount (d_ar d) T)%N.
Proof.
  intros Hd HT Hn. assert (0 < d_ar d) as Ha by apply Hd.
  rewrite <- (rep_lev _ _ _ HT). rewrite <- (cnt_tbdd (d_ar d) n T Ha); [|eapply rep_tok; [apply Hd|exact HT]|by rewrite (rep_lev _ _ _ HT)].
  apply cnt_ext. intros l Hl HF. apply dd_bdd_sem; try done. intros i. unfold vec_of_list.
  destruct (le_lt_dec (length l) (i - 1)) as [Hi|Hi]; [by rewrite nth_overflow|]. rewrite Forall_forall in HF. apply HF, elem_of_list_In, nth_In. done.
Qed.
Lemma root_rep d : dd_wf d -> exists T, rep (tab d) (rt d) T /\ rep (tab d) (mk (row (rt d)) (col (rt d))) T.
Proof.
  intros Hd. destruct (rep_exists (d_ar d) (tab d) ltac:(apply Hd) (rt d) ltac:(apply Hd)) as [T HT].
  exists T. split; [done|]. by eapply rep_code; [|exact HT].
Qed.

(** zddCardinality() is the decimal representation of the exact number of vectors of the ZDD, over any number of
    variables that covers the diagram.  [junk]: contents of fresh memory. *)
Theorem C13_zdd_cardinality d cap junk : dd_wf d -> room_for (d_ar d) (row (rt d)) (cap (row (rt d))) ->
  exists ds N, zdd_cardinality cap junk d = Some ds /\ decimal ds N /\
    forall n, row (rt d) <= n -> number_of (d_ar d) n (zdd_sem (dd_spec d) n) N.
Proof.
  intros Hd Hr. destruct (root_rep d Hd) as (T & HT & HT').
  destruct (evaluate_ok (card_big false (d_ar d) 0 cap junk) d Hd (card_inv d cap) (card_q d zcount) card0) as (e & v & He & Hv & E).
  - apply card_init_ok.
  - by apply card_term_ok.
  - by apply zdd_node_ok.
  - apply card_destruct_ok.
  - destruct (zdd_value_ok d junk cap 0 e _ v T HT' Hv) as (ds & E' & Hds).
    exists ds, (zcount T). split; [unfold zdd_cardinality; by rewrite E|]. split; [done|].
    intros n Hn. rewrite <- (cnt_zdd d n T Hd HT Hn). apply number_of_cnt.
Qed.
(** in particular with the storage the code allocates *)
Theorem C13_zdd_cardinality_exact_storage d junk : dd_wf d ->
  exists ds N, zdd_cardinality (max_words (d_ar d)) junk d = Some ds /\ decimal ds N /\
    forall n, row (rt d) <= n -> number_of (d_ar d) n (zdd_sem (dd_spec d) n) N.
Proof. intros Hd. apply C13_zdd_cardinality; [done|]. apply C13_capacity. apply Hd. Qed.
(** and with threads *)
Theorem C13_zdd_cardinality_parallel d cap junk nt asg ord : dd_wf d -> room_for (d_ar d) (row (rt d)) (cap (row (rt d))) ->
  eval_sched_ok nt d asg ord ->
  exists ds N, evaluate_mp (card_big false (d_ar d) 0 cap junk) nt asg ord card0 d = Some ds /\ decimal ds N /\
    forall n, row (rt d) <= n -> number_of (d_ar d) n (zdd_sem (dd_spec d) n) N.
Proof.
  intros Hd Hr [H1 H2 H3]. destruct (root_rep d Hd) as (T & HT & HT').
  destruct (evaluate_mp_ok (card_big false (d_ar d) 0 cap junk) d Hd (card_inv d cap) (card_q d zcount) card0) with nt asg ord as (e & v & He & Hv & E); try done.
  - apply card_init_ok.
  - by apply card_term_ok.
  - by apply zdd_node_ok.
  - apply card_destruct_ok.
  - destruct (zdd_value_ok d junk cap 0 e _ v T HT' Hv) as (ds & E' & Hds).
    exists ds, (zcount T). split; [by rewrite E|]. split; [done|].
    intros n Hn. rewrite <- (cnt_zdd d n T Hd HT Hn). apply number_of_cnt.
Qed.
(** The counted number does not depend on n and is unique. *)
Theorem C13_count_unique a n P N N' : number_of a n P N -> number_of a n P N' -> N = N'.
Proof. apply number_of_unique. Qed.

(** ** C14 *)
(** Proved when the scratch storage has room for ARITY^numVars; the code allocates it for ARITY^topLevel only. *)
Theorem C14_bdd_cardinality_partial d numVars cap junk : dd_wf d -> row (rt d) <= numVars ->
  room_for (d_ar d) numVars (cap (row (rt d))) ->
  exists ds N, bdd_cardinality numVars cap junk d = Some ds /\ decimal ds N /\
    number_of (d_ar d) numVars (bdd_sem (dd_spec d) numVars) N.
Proof.
  intros Hd Hn Hr. assert (0 < d_ar d) as Ha by apply Hd. destruct (root_rep d Hd) as (T & HT & HT').
  assert (room_for (d_ar d) (row (rt d)) (cap (row (rt d)))) as Hr'.
  { eapply N.le_lt_trans; [|exact Hr]. by apply pow_le_mono. }
  destruct (evaluate_ok (card_big true (d_ar d) numVars cap junk) d Hd (card_inv d cap) (card_q d (bcount (d_ar d))) card0) as (e & v & He & Hv & E).
  - apply card_init_ok.
  - by apply card_term_ok.
  - by apply bdd_node_ok.
  - apply card_destruct_ok.
  - destruct (bdd_value_ok d Hd junk cap numVars Hr' e _ v T He HT' Hv Hn Hr) as (ds & E' & Hds).
    eexists ds, _. split; [unfold bdd_cardinality; by rewrite E|]. split; [exact Hds|].
    rewrite <- (cnt_bdd d numVars T Hd HT Hn). apply number_of_cnt.
Qed.
(** With the code's storage, whenever the extra variables fit into it; always for numVars = topLevel. *)
Theorem C14_bdd_cardinality_top d junk : dd_wf d ->
  exists ds N, bdd_cardinality (row (rt d)) (max_words (d_ar d)) junk d = Some ds /\ decimal ds N /\
    number_of (d_ar d) (row (rt d)) (bdd_sem (dd_spec d) (row (rt d))) N.
Proof. intros Hd. apply C14_bdd_cardinality_partial; [done|done|]. apply C13_capacity. apply Hd. Qed.
Theorem C14_bdd_cardinality_parallel_partial d numVars cap junk nt asg ord : dd_wf d -> row (rt d) <= numVars ->
  room_for (d_ar d) numVars (cap (row (rt d))) -> eval_sched_ok nt d asg ord ->
  exists ds N, evaluate_mp (card_big true (d_ar d) numVars cap junk) nt asg ord card0 d = Some ds /\ decimal ds N /\
    number_of (d_ar d) numVars (bdd_sem (dd_spec d) numVars) N.
Proof.
  intros Hd Hn Hr [H1 H2 H3]. assert (0 < d_ar d) as Ha by apply Hd. destruct (root_rep d Hd) as (T & HT & HT').
  assert (room_for (d_ar d) (row (rt d)) (cap (row (rt d)))) as Hr'.
  { eapply N.le_lt_trans; [|exact Hr]. by apply pow_le_mono. }
  destruct (evaluate_mp_ok (card_big true (d_ar d) numVars cap junk) d Hd (card_inv d cap) (card_q d (bcount (d_ar d))) card0) with nt asg ord as (e & v & He & Hv & E); try done.
  - apply card_init_ok.
  - by apply card_term_ok.
  - by apply bdd_node_ok.
  - apply card_destruct_ok.
  - destruct (bdd_value_ok d Hd junk cap numVars Hr' e _ v T He HT' Hv Hn Hr) as (ds & E' & Hds).
    eexists ds, _. split; [by rewrite E|]. split; [exact Hds|].
    rewrite <- (cnt_bdd d numVars T Hd HT Hn). apply number_of_cnt.
Qed.

(** The full claim (every numVars >= topLevel, with the storage the code allocates) is false: for the constant
    true diagram tmp2 has one word, and 2^63 needs two. *)
Definition const1 : dd := Dd 2 [terminal_row 2] n1.
Theorem C14_bdd_cardinality_refuted : exists d numVars, dd_wf d /\ row (rt d) <= numVars /\
  number_of (d_ar d) numVars (bdd_sem (dd_spec d) numVars) (2 ^ 63) /\
  forall junk, bdd_cardinality numVars (max_words (d_ar d)) junk d = None.
Proof.
  exists const1, 63%nat. assert (dd_wf const1) as Hd by (by apply dd_wfb_ok).
  split; [done|]. split; [simpl; lia|]. split; [|intros junk; by vm_compute].
  destruct (root_rep const1 Hd) as (T & HT & _).
  pose proof (number_of_cnt (d_ar const1) 63 (bdd_sem (dd_spec const1) 63)) as H.
  rewrite (cnt_bdd const1 63 T Hd HT) in H by (simpl; lia).
  assert (T = T1) as -> by (eapply rep_det; [exact HT|by constructor]).
  assert (N.of_nat (d_ar const1) ^ N.of_nat (63 - row (rt const1)) * bcount (d_ar const1) T1 = 2 ^ 63)%N as E by (by vm_compute).
  rewrite E in H. exact H.
Qed.
(** Fewer variables than levels: the shift count is negative (undefined), although the count over the top level
    is defined. *)
Theorem C14_too_few_variables_refuted : exists d numVars, dd_wf d /\ d_ar d = 2 /\ numVars < row (rt d) /\
  forall junk, bdd_cardinality numVars (max_words (d_ar d)) junk d = None.
Proof.
  exists (Dd 2 [terminal_row 2; [[n0; n1]]] (mk 1 0)), 0. split_and!; [by apply dd_wfb_ok|done|simpl; lia|].
  intros junk. by vm_compute.
Qed.

(** ** Machine integers: BddCardinality<T> and ZddCardinality<T> count modulo 2^bits. *)
Section uint.
  Context (d : dd) (Hd : dd_wf d) (M : N) (HM : (1 < M)%N) (numVars : nat).
  Notation a := (d_ar d).
  Notation n := (row (rt d)).
  Let I (e : nat) : Prop := e = n.
  Let Q (count : tree -> N) (r c : nat) (v : N) : Prop := exists T, rep (tab d) (mk r c) T /\ v = (count T mod M)%N.

  Lemma cu_scale_ok k x : cu_scale a M k (x mod M) = ((N.of_nat a ^ N.of_nat k * x) mod M)%N.
  Proof using HM.
    induction k as [|k IH]; [by rewrite N.mul_1_l|].
    change (cu_scale a M (S k) (x mod M)%N) with ((cu_scale a M k (x mod M) * N.of_nat a) mod M)%N. rewrite IH.
    rewrite N.mul_mod_idemp_l by lia. f_equal. rewrite Nat2N.inj_succ, N.pow_succ_r'. lia.
  Qed.

  Lemma cu_node_ok (bdd : bool) (count : tree -> N) (i : nat) ts : forall (vs : list (N * nat)) (c : N),
    Forall2 (fun T x => snd x = tlev T /\ fst x = (count T mod M)%N) ts vs ->
    fold_left (fun n x => (n + (if bdd then cu_scale a M (i - snd x - 1) (fst x) else fst x)) mod M)%N vs (c mod M)%N =
    ((c + Nsum (map (fun T => if bdd then N.of_nat a ^ N.of_nat (i - tlev T - 1) * count T else count T)%N ts)) mod M)%N.
  Proof using HM.
    intros vs c HF. revert c. induction HF as [|T x ts vs [E1 E2] HF IH]; intros c.
    - cbn. by rewrite N.add_0_r.
    - cbn [map fold_left]. rewrite Nsum_cons, E1, E2.
      assert (((c mod M + (if bdd then cu_scale a M (i - tlev T - 1) (count T mod M) else count T mod M)) mod M =
              (c + (if bdd then N.of_nat a ^ N.of_nat (i - tlev T - 1) * count T else count T)) mod M))%N as ->.
      { destruct bdd; [rewrite cu_scale_ok|]; rewrite <- N.add_mod by lia; done. }
      rewrite IH. f_equal. lia.
  Qed.

  Lemma uint_children (count : tree -> N) i j p vs : 0 < i -> tget (tab d) (mk i j) = Some p ->
    Forall2 (fun g x => snd x = row g /\ row g < i /\ Q count (row g) (col g) (fst x)) p vs ->
    exists ts, rep (tab d) (mk i j) (TN i ts) /\ Forall2 (fun T x => snd x = tlev T /\ fst x = (count T mod M)%N) ts vs.
  Proof using.
    intros Hi Hp HF.
    assert (exists ts, Forall2 (rep (tab d)) p ts /\ Forall (fun g => row g < i) p /\
      Forall2 (fun T x => snd x = tlev T /\ fst x = (count T mod M)%N) ts vs) as (ts & H1 & H2 & H3).
    { clear Hp. induction HF as [|g x p vs (E1 & E2 & T & HT & Hv) HF (ts & H1 & H2 & H3)].
      - exists []. split_and!; constructor.
      - exists (T :: ts).
        assert (rep (tab d) g T) as HT' by (by eapply rep_code; [|exact HT]).
        assert (tlev T = row g) as EL by (by eapply rep_lev).
        split_and!; constructor; try done. by rewrite EL. }
    exists ts. split; [|done]. change i with (row (mk i j)) at 2. econstructor; try done.
  Qed.

  Local Lemma uint_ok (bdd : bool) (count : tree -> N) : count T0 = 0%N -> count T1 = 1%N ->
    (forall (i : nat) ts, count (TN i ts) = Nsum (map (fun T => if bdd then N.of_nat a ^ N.of_nat (i - tlev T - 1) * count T else count T)%N ts)) ->
    exists T, rep (tab d) (rt d) T /\
      evaluate (card_uint bdd a M numVars) 0 d = Some (cu_value bdd a M numVars n (count T mod M)%N).
  Proof using Hd HM.
    intros C0 C1 CN.
    destruct (evaluate_ok (card_uint bdd a M numVars) d Hd I (Q count) 0) as (e & v & He & (T & HT & Hv) & E).
    - by exists n.
    - intros e j He Hj. eexists e, _. split; [done|]. split; [done|]. destruct j as [|[|]]; [| |lia].
      + exists T0. split; [by constructor|]. rewrite C0. symmetry. apply N.mod_0_l. lia.
      + exists T1. split; [by constructor|]. rewrite C1. symmetry. by apply N.mod_small.
    - intros e i j p vs He Hi Hp HF. destruct (uint_children count i j p vs (proj1 Hi) Hp HF) as (ts & HR & HT).
      eexists e, _. split; [done|]. split; [done|]. exists (TN i ts). split; [done|].
      rewrite CN. unfold cu_node. pose proof (cu_node_ok bdd count i ts vs 0 HT) as H. rewrite N.mod_0_l, N.add_0_l in H by lia. done.
    - intros e i He. by exists e.
    - exists T. split; [by eapply rep_code; [|exact HT]|]. rewrite E, Hv. by rewrite He.
  Qed.

  Theorem C13_zdd_cardinality_machine :
    exists N, evaluate (card_uint false a M numVars) 0 d = Some (N mod M)%N /\
      forall m, n <= m -> number_of a m (zdd_sem (dd_spec d) m) N.
  Proof using Hd HM.
    destruct (uint_ok false zcount eq_refl eq_refl) as (T & HT & E); [done|].
    exists (zcount T). split; [done|]. intros m Hm. rewrite <- (cnt_zdd d m T Hd HT Hm). apply number_of_cnt.
  Qed.
  Theorem C14_bdd_cardinality_machine : n <= numVars ->
    exists N, evaluate (card_uint true a M numVars) 0 d = Some (N mod M)%N /\
      number_of a numVars (bdd_sem (dd_spec d) numVars) N.
  Proof using Hd HM.
    intros Hn. destruct (uint_ok true (bcount a) eq_refl eq_refl) as (T & HT & E); [done|].
    eexists. split; [|apply number_of_cnt]. rewrite (cnt_bdd d numVars T Hd HT Hn), E. unfold cu_value. f_equal. apply cu_scale_ok.
  Qed.
End uint.

(** ** Concrete cases *)
(** all combinations over 70 levels: 2^70 sets; skips no level *)
Definition full (n : nat) : dd := Dd 2 (terminal_row 2 :: map (fun i => [[mk i (if i =? 0 then 1 else 0); mk i (if i =? 0 then 1 else 0)]]) (seq 0 n)) (mk n 0).
(** level 3 skipped, a dead node and a dead level; three branches *)
Definition tern : dd := Dd 3 [terminal_row 3; [[n0; n1; n1]; [n1; n1; n0]]; [[n1; mk 1 0; mk 1 1]; [n0; n0; n0]]; []; [[mk 2 0; mk 1 1; n0]]] (mk 4 0).

Example C12_case : dd_wf tern /\
  (** an evaluator with state: counts the nodes it has seen, returns the height of the root *)
  let ev := Ev nat nat nat (fun _ _ => Some 0) (fun e _ => Some (e, 0))
              (fun e i vs => Some (S e, S (list_max (map fst vs)))) (fun e _ => Some e) (fun e v => Some v) in
  behaves ev 4 (fun _ => True) 5 (fun _ => 0) (fun i vs => S (list_max (map fst vs))) (fun v => v) /\
  evaluate ev 5 tern = Some 3 /\
  eval_sched_ok 2 tern (fun i j => j mod 2) (fun i => reverse (seq 0 (length (default [] (tab tern !! i))))) /\
  evaluate_mp ev 2 (fun i j => j mod 2) (fun i => reverse (seq 0 (length (default [] (tab tern !! i))))) 5 tern = Some 3.
Proof.
  split; [by apply dd_wfb_ok|]. cbv zeta. split_and!; [|by vm_compute| |by vm_compute].
  - split; simpl; eauto.
  - split; [lia|intros; by apply Nat.mod_upper_bound|]. intros i y ->. simpl. by rewrite reverse_Permutation.
Qed.
Example C13_case : dd_wf (full 70) /\ dd_wf tern /\
  zdd_cardinality (max_words 2) (fun k => N.of_nat k) (full 70) = Some [1;1;8;0;5;9;1;6;2;0;7;1;7;4;1;1;3;0;3;4;2;4]%N /\
  max_words 2 70 = 3 /\ zdd_cardinality (max_words 3) (fun _ => 7%N) tern = Some [7]%N /\
  evaluate (card_uint false 2 (2 ^ 64) 0) 0 (full 70) = Some 0%N.
Proof. split_and!; [by apply dd_wfb_ok..|by vm_compute|by vm_compute|by vm_compute|by vm_compute]. Qed.
Example C14_case : dd_wf tern /\ room_for 3 5 (max_words 3 4) /\
  bdd_cardinality 5 (max_words 3) (fun _ => 7%N) tern = Some [1;1;7]%N /\
  room_for 2 126 (max_words 2 70) /\ bdd_cardinality 70 (max_words 2) (fun _ => 7%N) (full 70) = Some [1;1;8;0;5;9;1;6;2;0;7;1;7;4;1;1;3;0;3;4;2;4]%N.
Proof. split_and!; [by apply dd_wfb_ok|by vm_compute|by vm_compute|by vm_compute|by vm_compute]. Qed.

Print Assumptions C12_evaluate.
Print Assumptions C12_evaluate_parallel.
Print Assumptions C13_zdd_cardinality.
Print Assumptions C14_bdd_cardinality_partial.
Print Assumptions C14_bdd_cardinality_refuted.
Print Assumptions C13_zdd_cardinality_machine.
