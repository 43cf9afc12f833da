(** The specification layer: what a DD specification means.
    Everything a property theorem talks about is defined here or in the model files. *)
From Verif Require Import Base.
Local Open Scope Z_scope.

(** A DD specification as seen through the API of DdSpecBase (DdSpec.hpp 36-66):
    [get_root] / [get_child] return a level code (0 = 0-terminal, negative = 1-terminal,
    positive = level of a non-terminal) together with the new state.
    States are values: get_copy/destruct (DdSpec.hpp 289-307) are value copy and disposal. *)
Record spec : Type := Spec {
  St : Type;
  ar : nat;                                   (* template parameter AR *)
  get_root : Z * St;                          (* int get_root(void* p) *)
  get_child : St -> Z -> nat -> Z * St;       (* int get_child(void* p, int level, int value) *)
  equal_to : Z -> St -> St -> bool;           (* bool equal_to(p, q, level) *)
  hash_code : Z -> St -> N                    (* size_t hash_code(p, level) *)
}.

(** A vector assigns to every level (1..n) a branch value. *)
Definition vec := nat -> nat.

(** BDD reading: a skipped level may take any value. *)
Fixpoint bdd_eval (sp : spec) (l : nat) (c : Z) (s : St sp) (v : vec) : bool :=
  match l with
  | O => c <? 0
  | S l' => if c =? Z.of_nat l
            then let r := get_child sp s c (v l) in bdd_eval sp l' (fst r) (snd r) v
            else bdd_eval sp l' c s v
  end.

(** ZDD reading: a skipped level must take value 0. *)
Fixpoint zdd_eval (sp : spec) (l : nat) (c : Z) (s : St sp) (v : vec) : bool :=
  match l with
  | O => c <? 0
  | S l' => if c =? Z.of_nat l
            then let r := get_child sp s c (v l) in zdd_eval sp l' (fst r) (snd r) v
            else if (v l =? 0)%nat then zdd_eval sp l' c s v else false
  end.

(** The Boolean function / the family of vectors over levels 1..n of a specification. *)
Definition bdd_sem (sp : spec) (n : nat) (v : vec) : bool :=
  bdd_eval sp n (fst (get_root sp)) (snd (get_root sp)) v.
Definition zdd_sem (sp : spec) (n : nat) (v : vec) : bool :=
  zdd_eval sp n (fst (get_root sp)) (snd (get_root sp)) v.

(** Level of the root node; 0 for terminals. *)
Definition top_level (sp : spec) : nat := Z.to_nat (fst (get_root sp)).

(** States that can occur at a level. *)
Inductive reach (sp : spec) : Z -> St sp -> Prop :=
| reach_root : 0 < fst (get_root sp) -> reach sp (fst (get_root sp)) (snd (get_root sp))
| reach_child l s b :
    reach sp l s -> (b < ar sp)%nat -> 0 < fst (get_child sp s l b) ->
    reach sp (fst (get_child sp s l b)) (snd (get_child sp s l b)).

(** The level codes met when following a sequence of branch values. *)
Fixpoint run (sp : spec) (c : Z) (s : St sp) (bs : list nat) : list Z :=
  match bs with
  | [] => [c]
  | b :: bs' => if 0 <? c
                then let r := get_child sp s c b in c :: run sp (fst r) (snd r) bs'
                else [c]
  end.

Definition same_future (sp : spec) (c : Z) (s s' : St sp) : Prop :=
  forall bs, Forall (fun b => (b < ar sp)%nat) bs -> run sp c s bs = run sp c s' bs.

(** The contract of DD specifications (userguide.md "DD specification",
    DdBuilder.hpp 364-370): levels strictly decrease along edges, and equal_to identifies
    only states with the same future.  Only reachable states matter. *)
Record spec_ok (sp : spec) : Prop := {
  ok_arity : (0 < ar sp)%nat;
  ok_level : forall l s b, reach sp l s -> (b < ar sp)%nat -> fst (get_child sp s l b) < l;
  ok_equal : forall l s s', reach sp l s -> reach sp l s' -> equal_to sp l s s' = true ->
             same_future sp l s s'
}.

(** A vector whose entries are legal branch values. *)
Definition vec_ok (a : nat) (v : vec) : Prop := forall l, (v l < a)%nat.

(** 1-terminals are reported as -1 (DdSpec.hpp, userguide.md: "return -1 for the 1-terminal"). *)
Definition one_code (sp : spec) : Prop :=
  -1 <= fst (get_root sp) /\
  forall l s b, reach sp l s -> (b < ar sp)%nat -> -1 <= fst (get_child sp s l b).

(** Stronger form of the contract on equal_to: a congruence on reachable states. *)
Record spec_congr (sp : spec) : Prop := {
  cg_refl : forall l s, reach sp l s -> equal_to sp l s s = true;
  cg_sym : forall l s s', reach sp l s -> reach sp l s' -> equal_to sp l s s' = equal_to sp l s' s;
  cg_trans : forall l s s' s'', reach sp l s -> reach sp l s' -> reach sp l s'' ->
    equal_to sp l s s' = true -> equal_to sp l s' s'' = true -> equal_to sp l s s'' = true;
  cg_child : forall l s s' b, reach sp l s -> reach sp l s' -> (b < ar sp)%nat ->
    equal_to sp l s s' = true ->
    fst (get_child sp s l b) = fst (get_child sp s' l b) /\
    (0 < fst (get_child sp s l b) ->
     equal_to sp (fst (get_child sp s l b)) (snd (get_child sp s l b)) (snd (get_child sp s' l b)) = true)
}.

(** hash_code respects equal_to. *)
Definition hash_ok (sp : spec) : Prop :=
  forall l s s', reach sp l s -> reach sp l s' -> equal_to sp l s s' = true ->
  hash_code sp l s = hash_code sp l s'.

(** The premises of the sharing theorem (C03), on all states. *)
Definition shareable (sp : spec) : Prop :=
  (forall l s s', equal_to sp l s s' = equal_to sp l s' s) /\
  (forall l s s', equal_to sp l s s' = true -> hash_code sp l s = hash_code sp l s').
