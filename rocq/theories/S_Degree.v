(** Specification vocabulary for edge sets of a numbered graph: edge number a is decided at level n - a. *)
From stdpp Require Import strings.
From Verif Require Import Base Sem M_Size M_Graph.
Local Open Scope Z_scope.

(** the degree of vertex x in the chosen edges; a self-loop counts twice *)
Fixpoint degree (es : list edge_info) (v : vec) (x : nat) : Z :=
  match es with
  | [] => 0
  | e :: es' =>
      (if (v (length es) =? 0)%nat then 0
       else (if (e_v1 e =? x)%nat then 1 else 0) + (if (e_v2 e =? x)%nat then 1 else 0)) + degree es' v x
  end.

(** the degrees of all constrained vertices are allowed *)
Definition degrees_ok (g : graph) (cons : list (option int_subset)) (v : vec) : Prop :=
  forall x c, (1 <= x <= vertexSize g)%nat -> cons !! x = Some (Some c) -> contains c (degree (g_edgeInfo g) v x) = true.

(** upperBound is an upper bound of the integers 0..n in the subset *)
Definition upper_sound (n : nat) (c : int_subset) : Prop :=
  forall x, 0 <= x <= Z.of_nat n -> contains c x = true -> x <= upperBound c.

Definition loop_free (g : graph) : Prop := forall a e, g_edgeInfo g !! a = Some e -> e_v1 e <> e_v2 e.

(** The same by names: the degree of the vertex named s in the chosen edges; edge2name[a] is decided at level n - a. *)
Fixpoint degree_named (l : list edge_name) (v : vec) (s : String.string) : Z :=
  match l with
  | [] => 0
  | e :: l' =>
      (if (v (length l) =? 0)%nat then 0
       else (if bool_decide (fst e = s) then 1 else 0) + (if bool_decide (snd e = s) then 1 else 0)) + degree_named l' v s
  end.

(** the constraint of s after the calls setConstraint(t, c) listed in [sets], the default being [dflt] *)
Definition last_constraint (dflt : option int_subset) (sets : list (String.string * option int_subset)) (s : String.string)
  : option int_subset := foldl (fun cur tc => if bool_decide (fst tc = s) then snd tc else cur) dflt sets.

(** the degrees can be counted in 16 bits *)
Definition countable (n : nat) (c : option int_subset) : Prop :=
  forall c', c = Some c' -> upper_sound n c' /\ (upperBound c' <= 32767 \/ Z.of_nat n <= 32767).
