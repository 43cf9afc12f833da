(** Placements of queens and rooks on an n x n board, independent of the code. *)
From Verif Require Import Base Sem.
Local Open Scope nat_scope.

(** the variable at level i * n + j + 1 is the square in row i and column j *)
Definition on (n : nat) (v : vec) (i j : nat) : Prop := i < n /\ j < n /\ v (i * n + j + 1) <> 0.

Definition rook_attacks (i j i' j' : nat) : Prop := i = i' \/ j = j'.
Definition queen_attacks (i j i' j' : nat) : Prop := rook_attacks i j i' j' \/ i + j = i' + j' \/ i + j' = i' + j.
Definition attacks (rook : bool) : nat -> nat -> nat -> nat -> Prop := if rook then rook_attacks else queen_attacks.

(** [qs] are the squares of the pieces on the board: n of them, and no two of them attack each other *)
Definition peaceful (n : nat) (rook : bool) (v : vec) : Prop :=
  exists qs : list (nat * nat), NoDup qs /\ length qs = n /\
    (forall i j, (i, j) ∈ qs <-> on n v i j) /\
    forall i j i' j', (i, j) ∈ qs -> (i', j') ∈ qs -> (i, j) <> (i', j') -> ~ attacks rook i j i' j'.
