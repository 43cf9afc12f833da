(** C31: BigNumber arithmetic is exact.  [holds a n s], [minimal] and [decimal] are defined in S_Big.v. *)
From Verif Require Import Base M_Big S_Big P_Big.
Local Open Scope N_scope.

(** The result has [s] words, or one more when the value does not fit into s words; the array must have room
    for them, nothing behind them is touched, and the returned word count is right. *)
Definition room (v : N) (s len : nat) : Prop :=
  (s <= len)%nat /\ (2 ^ (63 * N.of_nat s) <= v -> (s < len)%nat).
Definition result (a : list N) (r : option (list N * nat)) (v : N) (s : nat) : Prop :=
  exists a' s', r = Some (a', s') /\ holds a' v s' /\ length a' = length a /\ drop s' a' = drop s' a /\
    (s' = s \/ s' = S s /\ 2 ^ (63 * N.of_nat s) <= v).

Lemma room_wneed v s len : room v s len -> (wneed v s <= len)%nat.
Proof.
  intros [H1 H2]. unfold wneed. rewrite pow63. destruct (N.ltb_spec v (2 ^ (63 * N.of_nat s))) as [H|H]; [done|].
  specialize (H2 H). lia.
Qed.
Lemma result_wneed a r v s :
  (exists a', r = Some (a', wneed v s) /\ holds a' v (wneed v s) /\ frame a a' (wneed v s)) -> result a r v s.
Proof.
  intros (a' & -> & H & F1 & F2). exists a', (wneed v s). split_and!; try done. unfold wneed. rewrite pow63.
  destruct (N.ltb_spec v (2 ^ (63 * N.of_nat s))); [by left|by right].
Qed.

(** size() is the number of words; translate() is the number *)
Theorem C31_size a n s : holds a n s -> big_size a = Some s /\ big_translate a = Some n.
Proof. intros H. split; [by eapply big_size_ok|by eapply big_translate_ok]. Qed.

(** assignment of another number *)
Theorem C31_store a o n s : holds o n s -> (s <= length a)%nat ->
  exists a', big_store a o = Some (a', s) /\ holds a' n s /\ length a' = length a /\ drop s a' = drop s a.
Proof. intros H Hl. by apply big_store_ok. Qed.

(** assignment of a 64-bit number; the result is minimal *)
Theorem C31_store64 a n : n < 2 ^ 64 -> room n 1 (length a) ->
  result a (big_store64 a n) n 1 /\
  forall a' s', big_store64 a n = Some (a', s') -> minimal n s'.
Proof.
  intros Hn Hr. rewrite B64 in Hn. destruct (big_store64_ok a n Hn (room_wneed _ _ _ Hr)) as (a' & E & H & F).
  split; [apply result_wneed; by exists a'|]. intros a1 s1 E1. rewrite E1 in E. injection E as -> ->.
  rewrite wneed_1. destruct (N.ltb_spec n (2 ^ 63)); [by left|by right].
Qed.

(** addition; minimality is preserved *)
Theorem C31_add a o na no sa so : holds a na sa -> holds o no so ->
  room (na + no) (max sa so) (length a) ->
  result a (big_add a o) (na + no) (max sa so) /\
  (minimal na sa -> minimal no so -> forall a' s', big_add a o = Some (a', s') -> minimal (na + no) s').
Proof.
  intros Ha Ho Hr. destruct (big_add_ok a o na no sa so Ha Ho (room_wneed _ _ _ Hr)) as (a' & E & H & F).
  split; [apply result_wneed; by exists a'|]. intros M1 M2 a1 s1 E1. rewrite E1 in E. injection E as -> ->.
  by apply minimal_add.
Qed.

(** left shift by any number of bits; minimality of non-zero numbers is preserved *)
Theorem C31_shift_left a n s k : holds a n s -> room (n * 2 ^ N.of_nat k) (s + k / 63) (length a) ->
  result a (big_shiftl a k) (n * 2 ^ N.of_nat k) (s + k / 63) /\
  (n <> 0 -> minimal n s -> forall a' s', big_shiftl a k = Some (a', s') -> minimal (n * 2 ^ N.of_nat k) s').
Proof.
  intros Ha Hr. destruct (big_shiftl_ok a n s k Ha (room_wneed _ _ _ Hr)) as (a' & E & H & F).
  split; [apply result_wneed; by exists a'|]. intros Hn M1 a1 s1 E1. rewrite E1 in E. injection E as -> ->.
  apply minimal_shift; [done..|]. pose proof (holds_len _ _ _ Ha). lia.
Qed.

(** A zero shifted by 63 bits or more is stored with superfluous words, and then is not == 0 any more. *)
Theorem C31_shift_left_minimal_refuted :
  exists a a' s', holds a 0 1 /\ minimal 0 1 /\ big_shiftl a 63 = Some (a', s') /\ ~ minimal 0 s' /\
    holds a' 0 s' /\ big_eqb64 a' 0 = Some false.
Proof.
  exists [0; 0], [2 ^ 63; 0], 2%nat. split_and!; try (by vm_compute).
  - by constructor.
  - by left.
  - by intros [?|?].
  - change (holds [0 + 2 ^ 63; 0] (0 + 2 ^ 63 * 0) 2). constructor; [done|]. by constructor.
Qed.

(** divide(10) *)
Theorem C31_divide a n s : holds a n s ->
  exists a' s', big_divide a = Some (a', n mod 10) /\ holds a' (n / 10) s' /\ minimal (n / 10) s' /\
    (s' <= s)%nat /\ length a' = length a /\ drop s a' = drop s a.
Proof. intros H. destruct (big_divide_ok a n s H) as (a' & s' & ? & ? & ? & ? & ?). exists a', s'. done. Qed.

(** comparison *)
Theorem C31_compare a n s o m s' x : holds a n s -> minimal n s -> holds o m s' -> minimal m s' -> x < 2 ^ 64 ->
  big_eqb a o = Some (n =? m) /\ big_eqb64 a x = Some (n =? x).
Proof. intros. split; [by eapply big_eqb_ok|by eapply big_eqb64_ok]. Qed.

(** decimal printing *)
Theorem C31_print a n s : holds a n s -> exists ds, big_print a = Some ds /\ decimal ds n.
Proof. apply big_print_ok. Qed.
(** [decimal] determines the digits *)
Theorem C31_decimal_unique ds ds' n : decimal ds n -> decimal ds' n -> ds = ds'.
Proof. apply decimal_unique. Qed.

(** 2^64 - 1 plus 2^63 + 5, in an array of five words, then shifted by 100 bits and printed *)
Example C31_case :
  let a := [2 ^ 63 - 1 + 2 ^ 63; 1; 77; 78; 79] in let o := [5 + 2 ^ 63; 1] in
  holds a (2 ^ 64 - 1) 2 /\ minimal (2 ^ 64 - 1) 2 /\ holds o (2 ^ 63 + 5) 2 /\ minimal (2 ^ 63 + 5) 2 /\
  room (2 ^ 64 - 1 + (2 ^ 63 + 5)) 2 5 /\
  exists a1, big_add a o = Some (a1, 2%nat) /\ holds a1 (2 ^ 64 - 1 + (2 ^ 63 + 5)) 2 /\
  room ((2 ^ 64 - 1 + (2 ^ 63 + 5)) * 2 ^ 100) (2 + 100 / 63) 5 /\
  exists a2, big_shiftl a1 100 = Some (a2, 3%nat) /\ drop 3 a2 = [78; 79] /\
  big_print a2 = Some [3; 5; 0; 7; 6; 0; 3; 9; 2; 9; 5; 9; 4; 1; 6; 7; 0; 0; 4; 1; 9; 5;
           9; 0; 3; 8; 3; 8; 6; 1; 0; 3; 7; 1; 0; 0; 7; 7; 7; 2; 9; 1; 9; 3; 8; 5; 2; 9; 2; 8].
Proof.
  assert (forall w v, w < 2 ^ 63 -> v < 2 ^ 63 -> forall a, holds (w + 2 ^ 63 :: v :: a) (w + 2 ^ 63 * v) 2) as H.
  { intros. constructor; [done|]. by constructor. }
  cbn zeta. split_and!.
  - apply (H (2 ^ 63 - 1) 1); done.
  - by right.
  - apply (H 5 1); done.
  - by right.
  - split; [lia|]. intros _. lia.
  - eexists. split; [by vm_compute|]. split_and!.
    + apply (H 4 3); done.
    + split; [by vm_compute; lia|]. intros _. by vm_compute; lia.
    + eexists. split; [by vm_compute|]. split; by vm_compute.
Qed.

Print Assumptions C31_size.
Print Assumptions C31_store.
Print Assumptions C31_store64.
Print Assumptions C31_add.
Print Assumptions C31_shift_left.
Print Assumptions C31_shift_left_minimal_refuted.
Print Assumptions C31_divide.
Print Assumptions C31_compare.
Print Assumptions C31_print.
Print Assumptions C31_decimal_unique.
