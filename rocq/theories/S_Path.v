(** Paths to the 1-terminal in the diagram a specification denotes. *)
From Verif Require Import Base Sem.
Local Open Scope Z_scope.

(** [accepting sp l s p]: from state s at level (or terminal code) l, taking the (level, branch) pairs p from top to
    bottom ends in the 1-terminal. *)
Inductive accepting (sp : spec) : Z -> St sp -> list (Z * nat) -> Prop :=
| acc_one l s : l < 0 -> accepting sp l s []
| acc_step l s b p : 0 < l -> (b < ar sp)%nat ->
    accepting sp (fst (get_child sp s l b)) (snd (get_child sp s l b)) p -> accepting sp l s ((l, b) :: p).

(** from the root *)
Definition accepting_path (sp : spec) (p : list (Z * nat)) : Prop :=
  accepting sp (fst (get_root sp)) (snd (get_root sp)) p.

(** the vector with the given values; items that do not occur have value 0 *)
Fixpoint vec_of_path (p : list (Z * nat)) : vec := fun k =>
  match p with
  | [] => 0%nat
  | (l, b) :: p' => if Z.of_nat k =? l then b else vec_of_path p' k
  end.
