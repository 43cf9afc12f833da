(** What a user of mergeStates expects: only the cheapest members stay.
    Nothing here refers to the builder. *)
From Verif Require Import Base Sem.
Local Open Scope Z_scope.

(** The state in which the specification accepts a vector, [None] if it rejects the vector
    (the evaluation is the one of Sem.zdd_eval / Sem.bdd_eval). *)
Fixpoint zfinal_at (sp : spec) (l : nat) (c : Z) (s : St sp) (v : vec) : option (St sp) :=
  match l with
  | O => if c <? 0 then Some s else None
  | S l' => if c =? Z.of_nat l
            then let r := get_child sp s c (v l) in zfinal_at sp l' (fst r) (snd r) v
            else if (v l =? 0)%nat then zfinal_at sp l' c s v else None
  end.
Fixpoint bfinal_at (sp : spec) (l : nat) (c : Z) (s : St sp) (v : vec) : option (St sp) :=
  match l with
  | O => if c <? 0 then Some s else None
  | S l' => if c =? Z.of_nat l
            then let r := get_child sp s c (v l) in bfinal_at sp l' (fst r) (snd r) v
            else bfinal_at sp l' c s v
  end.
Definition zfinal (sp : spec) (n : nat) (v : vec) : option (St sp) :=
  zfinal_at sp n (fst (get_root sp)) (snd (get_root sp)) v.
Definition bfinal (sp : spec) (n : nat) (v : vec) : option (St sp) :=
  bfinal_at sp n (fst (get_root sp)) (snd (get_root sp)) v.

(** [v] is accepted, and no accepted vector has a cheaper final state *)
Definition cheapest {S} (final : vec -> option S) (a : nat) (cost : S -> Z) (v : vec) : Prop :=
  exists s, final v = Some s /\
    forall v' s', vec_ok a v' -> final v' = Some s' -> cost s <= cost s'.

(** states handed over with the 1-terminal *)
Definition final_state (sp : spec) (s' : St sp) : Prop :=
  exists l s b, reach sp l s /\ (b < ar sp)%nat /\ fst (get_child sp s l b) < 0 /\ s' = snd (get_child sp s l b).

(** the return code of merge_states (DdSpec.hpp 59-62): keep both, or forward the more expensive one
    to the 0-terminal *)
Definition code_of (c : comparison) : nat :=
  match c with Eq => 0%nat | Gt => 1%nat | Lt => 2%nat end.

(** A mergeStates that compares costs: states that equal_to identifies have the same continuations,
    and a common continuation does not change which of two such states is cheaper. *)
Record merge_ok (sp : spec) (mrg : St sp -> St sp -> nat) (cost : St sp -> Z) : Prop := {
  mo_ok : spec_ok sp;
  mo_congr : spec_congr sp;
  mo_node : forall l s s', reach sp l s -> reach sp l s' -> equal_to sp l s s' = true ->
    mrg s s' = code_of (cost s ?= cost s');
  mo_final : forall s s', final_state sp s -> final_state sp s' ->
    mrg s s' = code_of (cost s ?= cost s');
  mo_mono : forall l s s' b, reach sp l s -> reach sp l s' -> equal_to sp l s s' = true ->
    (b < ar sp)%nat -> fst (get_child sp s l b) <> 0 ->
    (cost (snd (get_child sp s l b)) ?= cost (snd (get_child sp s' l b))) = (cost s ?= cost s')
}.

(** The typical use: a specification together with a weight [wt l b] for the decision [b] at level [l].
    The state carries the weight so far, equal_to and hash_code ignore it, and mergeStates compares it. *)
Definition weighted (sp : spec) (wt : nat -> nat -> Z) : spec :=
  Spec (St sp * Z) (ar sp) (fst (get_root sp), (snd (get_root sp), 0))
    (fun x l b => let r := get_child sp (fst x) l b in (fst r, (snd r, snd x + wt (Z.to_nat l) b)))
    (fun l x y => equal_to sp l (fst x) (fst y))
    (fun l x => hash_code sp l (fst x)).
Definition lighter {S} (x y : S * Z) : nat := code_of (snd x ?= snd y).

(** the weight of a vector over the levels 1..n *)
Fixpoint weight (wt : nat -> nat -> Z) (n : nat) (v : vec) : Z :=
  match n with O => 0 | S n' => wt n (v n) + weight wt n' v end.
