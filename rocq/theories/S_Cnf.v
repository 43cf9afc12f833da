(** What a file of clauses means.  A clause is a list of numbers other than 0: x stands for variable x, -x for its
    negation. *)
From Verif Require Import Base Sem.
Local Open Scope Z_scope.

(** The numbers of an input that contains the clauses Cs: each clause is followed by a 0, which may be missing at the end. *)
Definition written (Cs : list (list Z)) : list Z := flat_map (fun C => C ++ [0]) Cs.
Definition dimacs (Cs : list (list Z)) (numbers : list Z) : Prop :=
  Forall (Forall (fun x => x <> 0)) Cs /\ (numbers = written Cs \/ numbers ++ [0] = written Cs).

Definition tautology (C : list Z) : Prop := exists x, x ∈ C /\ - x ∈ C.
(** a clause that says something: neither empty nor a tautology *)
Definition proper (C : list Z) : Prop := C <> [] /\ ~ tautology C.
Definition same_literals (C D : list Z) : Prop := forall x, x ∈ C <-> x ∈ D.
(** an assignment of truth values to the variables makes a clause true *)
Definition satisfies (val : Z -> bool) (C : list Z) : Prop :=
  exists x, x ∈ C /\ (0 < x /\ val x = true \/ x < 0 /\ val (- x) = false).

(** variable x is at level nv - x + 1 *)
Definition level_of (nv : nat) (x : Z) : nat := Z.to_nat (Z.of_nat nv - x + 1).
(** a vector with values 0, 1, 2 stands for the clause with -x where it has the value 1, and x where it has the value 2 *)
Definition stands_for (nv : nat) (v : vec) (C : list Z) : Prop :=
  forall x, 1 <= x <= Z.of_nat nv -> (v (level_of nv x) = 1%nat <-> - x ∈ C) /\ (v (level_of nv x) = 2%nat <-> x ∈ C).

(** A lists the different proper clauses of Cs: as sets of literals, each of them once *)
Definition different_clauses (Cs A : list (list Z)) : Prop :=
  (forall C, C ∈ A -> exists D, D ∈ Cs /\ proper D /\ same_literals C D) /\
  (forall D, D ∈ Cs -> proper D -> exists C, C ∈ A /\ same_literals C D) /\
  (forall i j C D, A !! i = Some C -> A !! j = Some D -> same_literals C D -> i = j).
