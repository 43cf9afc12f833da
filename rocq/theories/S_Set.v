(** What a user expects of sets: finite sets of numbers. *)
From stdpp Require Import gmap.
From Coq Require Import Sorted.
From Verif Require Import Base M_Set.

(** MyBitSet with n words, that is for the numbers below 64 * n; None: a number out of range *)
Definition bv_exec (n : nat) (s : gset nat) (c : bop) : option (gset nat) :=
  match c with
  | BAdd i => if i <? 64 * n then Some ({[i]} ∪ s) else None
  | BRemove i => if i <? 64 * n then Some (s ∖ {[i]}) else None
  | BClear => Some ∅
  end.
(** a new MyBitSet<N>(x): the bits of the number x; MyBitSet<0>(x) is empty *)
Definition bv_new (cN : nat) (x : N) : gset nat :=
  if cN =? 0 then ∅ else list_to_set (filter (fun i => N.testbit x (N.of_nat i) = true) (seq 0 64)).
(** how a MyBitSet of n words is made *)
Definition bv_made (cN n : nat) (raw : list N) (x : N) : Prop :=
  if cN =? 0 then x = N.of_nat n /\ length raw = S n else n = cN /\ length raw = n /\ (x < 2 ^ 64)%N.

(** MySmallSet<T,N>, or on a pool with room for cap elements: is the operation refused with an exception?  None: no room on the pool *)
Definition sv_exec (cN cap : nat) (s : gset Z) (c : sop) : option (bool * gset Z) :=
  match c with
  | SAdd e =>
      if cN =? 0 then (if size s <? cap then Some (false, {[e]} ∪ s) else None)
      else if cN - 1 <=? size s then Some (true, s) else Some (false, {[e]} ∪ s)
  | SRemove e => Some (false, s ∖ {[e]})
  | SClear => Some (false, ∅)
  end.
Fixpoint sv_run (cN cap : nat) (s : gset Z) (l : list sop) : option (list bool * gset Z) :=
  match l with [] => Some ([], s) | c :: l' => '(t, s1) ← sv_exec cN cap s c; '(ts, s2) ← sv_run cN cap s1 l'; Some (t :: ts, s2) end.
(** sorted containers without duplicates *)
Definition ascending (c : list Z) : Prop := StronglySorted Z.lt c.
