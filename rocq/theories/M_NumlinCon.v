(** apps/numberlink: ConstraintZdd and the program ddnumlin without -a.
    [None] stands for an access out of range. *)
From Verif Require Import Base Sem M_Table M_Engine M_Builder M_Ops M_Conv M_Subset Props_Reduce S_Api M_Numlin M_NumlinProg.
Local Open Scope Z_scope.

(** VertexState (ConstraintZdd.hpp 28-32) *)
Record vstate : Type := VS { v_east : bool; v_south : bool; v_used : bool }.
Global Instance vstate_eq_dec : EqDecision vstate.
Proof. solve_decision. Defined.
Definition cz_state : Type := bool * list vstate.
Definition putv (a : list vstate) (k : nat) (x : vstate) : option (list vstate) :=
  if (k <? length a)%nat then Some (<[k := x]> a) else None.

(** ConstraintZdd.cpp 27-35 *)
Definition cz_root (b : board) : option (Z * cz_state) := Some (dz_top b, (false, replicate (b_cols b) (VS false false false))).

(** ConstraintZdd.cpp 37-71.  After "return 0" the state is left as it was. *)
Definition cz_child (b : board) (st : cz_state) (level : Z) (take : bool) : option (Z * cz_state) :=
  let n := b_cols b in let '(s, a) := st in
  let i := Z.to_nat ((dz_top b - level) / (Z.of_nat n - 1)) in
  let j := Z.to_nat ((dz_top b - level) mod (Z.of_nat n - 1)) in
  vj ← a !! j;
  vk ← a !! S j;
  if take && (2 <=? b2n (v_south vj) + b2n (v_east vj) + b2n (v_south vk))%nat then Some (0, st) else
  if take && (v_south vj && negb (v_used vk)) then Some (0, st) else
  if take && (negb (v_used vj) && v_south vk) then Some (0, st) else
  t ← b_num b i j;
  let s := if negb (v_east vj) || take then false else if v_south vj then true else if negb (t =? 0) then false else s in
  if s && v_south vk then Some (0, st) else
  w ← (if (1 <=? j)%nat then a !! (j - 1)%nat else Some (VS false false false));
  let d := (b2n (negb (t =? 0)%Z) + b2n (v_south vj) + b2n take + b2n (v_east w))%nat in
  a ← putv a j (VS take (d =? 1)%nat (1 <=? d)%nat);
  if v_east w && v_south w && (d =? 1)%nat then Some (0, st) else
  let next := if 0 <? level - 1 then level - 1 else -1 in
  if (S j =? n - 1)%nat then
    t' ← b_num b i (S j);
    let d' := (b2n (negb (t' =? 0)%Z) + b2n (v_south vk) + b2n take)%nat in
    a ← putv a (S j) (VS (v_east vk) (d' =? 1)%nat (1 <=? d')%nat);
    if take && (d =? 1)%nat && (d' =? 1)%nat then Some (0, st) else Some (next, (false, a))
  else Some (next, (s, a)).
Definition cz_spec (b : board) : spec := {|
  St := cz_state;
  ar := 2;
  get_root := default (0, (false, [])) (cz_root b);
  get_child := fun s level k => default (0, s) (cz_child b s level (negb (k =? 0)%nat));
  equal_to := fun _ s s' => bool_decide (s = s');
  hash_code := fun _ s => foldl (fun h x => (h + N.of_nat (b2n (v_east x)) + 256 * N.of_nat (b2n (v_south x)) + 65536 * N.of_nat (b2n (v_used x))) * 314159257 mod 2 ^ 64)%N
    (N.of_nat (b2n (fst s))) (snd s)
|}.

(** run without -a (ddnumlin.cpp 119-135) *)
Definition ddnumlin_short (b : board) (max_blank : Z) (d : dd) : Prop :=
  exists quiz h v transposed d0, nl_prepare b = Some ((quiz, h, v), transposed) /\
    constructed (zdd_lookahead (zdd_intersection (cz_spec quiz) (nl_spec (Numlin quiz max_blank)))) d0 /\ reduction false true d0 d.
