(** Specification vocabulary for evaluation and counting. *)
From Verif Require Import Base Sem M_Table.

(** The value of a reference under bottom-up evaluation: [term j] for terminal j, and for a node of level i
    [node i] applied to the values and levels of its children, in branch order. *)
Inductive value_of {T : Type} (term : nat -> T) (node : nat -> list (T * nat) -> T) (t : table) : nid -> T -> Prop :=
| vo_term f : row f = 0 -> value_of term node t f (term (col f))
| vo_node f p vs : 0 < row f -> tget t f = Some p -> length vs = length p ->
    (forall b g x, p !! b = Some g -> vs !! b = Some x -> snd x = row g) ->
    (forall b g x, p !! b = Some g -> vs !! b = Some x -> value_of term node t g (fst x)) ->
    value_of term node t f (node (row f) vs).

(** A vector given as the list of its entries for levels 1, 2, ... *)
Definition vec_of_list (l : list nat) : vec := fun i => nth (i - 1) l 0.

(** Exactly [N] vectors of length [n] over 0..a-1 satisfy [P]. *)
Definition number_of (a n : nat) (P : vec -> bool) (N : N) : Prop :=
  exists L : list (list nat), NoDup L /\ N = N.of_nat (length L) /\
    forall l, l ∈ L <-> length l = n /\ Forall (fun x => x < a) l /\ P (vec_of_list l) = true.

(** The methods of an evaluator do what the pure functions [term], [node] and [val] say, whatever state the
    evaluator is in; [I] is an invariant of its state that holds after initialize(n). *)
From Verif Require Import M_Eval.
Record behaves (ev : evaluator) (n : nat) (I : ES ev -> Prop) (e0 : ES ev)
    (term : nat -> ET ev) (node : nat -> list (ET ev * nat) -> ET ev) (val : ET ev -> ER ev) : Prop := {
  bh_init : exists e, e_init ev e0 n = Some e /\ I e;
  bh_term : forall e j, I e -> exists e', e_term ev e j = Some (e', term j) /\ I e';
  bh_node : forall e i vs, I e -> exists e', e_node ev e i vs = Some (e', node i vs) /\ I e';
  bh_destruct : forall e i, I e -> exists e', e_destruct ev e i = Some e' /\ I e';
  bh_value : forall e v, I e -> e_value ev e v = Some (val v)
}.
(** A distribution of the iterations of each level over [nt] threads, and an order in which they are executed *)
Record eval_sched_ok (nt : nat) (d : dd) (asg : nat -> nat -> nat) (ord : nat -> list nat) : Prop := {
  es_nt : 0 < nt;
  es_asg : forall i j, asg i j < nt;
  es_ord : forall i y, tab d !! i = Some y -> ord i ≡ₚ seq 0 (length y)
}.
