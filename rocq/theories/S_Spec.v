(** Specification vocabulary for the ready-made specifications (sets of levels). *)
From stdpp Require Import sorting.
From Verif Require Import Base Sem M_Size.
Local Open Scope Z_scope.

(** The number of levels among 1..n whose value is not 0 (= the size of the chosen set). *)
Fixpoint chosen (v : vec) (n : nat) : Z :=
  match n with O => 0 | S n' => (if (v n =? 0)%nat then 0 else 1) + chosen v n' end.

(** lowerBound/upperBound are bounds of the integers 0..n in the subset. *)
Definition bounds_sound (n : nat) (c : int_subset) : Prop :=
  forall x, 0 <= x <= Z.of_nat n -> contains c x = true -> lowerBound c <= x <= upperBound c.

(** The value of a linear expression: the sum of the weights of the chosen levels. *)
Fixpoint lin_value (v : vec) (e : list (nat * Z)) : Z :=
  match e with [] => 0 | (k, w) :: e' => (if (v k =? 0)%nat then 0 else w) + lin_value v e' end.

(** lower <= value <= upper *)
Definition lin_sat (v : vec) (c : list (nat * Z) * Z * Z) : Prop :=
  snd (fst c) <= lin_value v (fst (fst c)) <= snd c.

(** An expression over the levels 1..n: increasing keys, all in range. *)
Definition lin_wf (n : nat) (c : list (nat * Z) * Z * Z) : Prop :=
  StronglySorted (fun a b => (fst a < fst b)%nat) (fst (fst c)) /\
  Forall (fun kw => (1 <= fst kw <= n)%nat) (fst (fst c)).
