(** Specification vocabulary for multi-word numbers and decimal representations. *)
From Verif Require Import Base.
Local Open Scope N_scope.

(** A number n is stored at the beginning of a 64-bit array as s words: little endian, 63 bits in each word;
    the top bit of a word says whether another word follows. *)
Inductive holds : list N -> N -> nat -> Prop :=
| holds_last w a : w < 2 ^ 63 -> holds (w :: a) w 1
| holds_more w a n s : w < 2 ^ 63 -> holds a n s -> holds (w + 2 ^ 63 :: a) (w + 2 ^ 63 * n) (S s).

(** Without superfluous leading zero words: s words are needed. *)
Definition minimal (n : N) (s : nat) : Prop := s = 1%nat \/ 2 ^ (63 * N.of_nat (s - 1)) <= n.

(** [ds] is the decimal representation of n, most significant digit first, without leading zeros. *)
Definition decimal (ds : list N) (n : N) : Prop :=
  Forall (fun d => d < 10) ds /\ fold_left (fun x d => 10 * x + d) ds 0 = n /\
  ds <> [] /\ (forall d, head ds = Some d -> d = 0 -> ds = [0]).
