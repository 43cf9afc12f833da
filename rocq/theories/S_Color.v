(** Specification vocabulary for the building blocks of the colored n-queens program. *)
From Verif Require Import Base Sem S_Queen.
Local Open Scope nat_scope.

(** [n] vectors are interleaved in one: level (i - 1) * n + k + 1 is level i of vector number k *)
Definition track (n k : nat) (v : vec) : vec := fun i => v ((i - 1) * n + k + 1).
(** group number i (from 0) has m levels *)
Definition in_group (m : nat) (v : vec) (i j : nat) : Prop := j < m /\ v (i * m + j + 1) <> 0.
Definition at_most_one (m : nat) (v : vec) (i : nat) : Prop := forall j j', in_group m v i j -> in_group m v i j' -> j = j'.
Definition exactly_one (m : nat) (v : vec) (i : nat) : Prop := at_most_one m v i /\ exists j, in_group m v i j.

(** the colored n-queens problem: every square has one of n colors, and the squares of each color are a solution of
    the n-queens problem; color k is on square n - 1 - k of the last row *)
Definition colored_queens (n : nat) (v : vec) : Prop :=
  (forall c, c < n * n -> exactly_one n v c) /\
  forall k, k < n -> peaceful n false (track n k v) /\ on n (track n k v) (n - 1) (n - 1 - k).
