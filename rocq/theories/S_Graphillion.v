(** The text format of Graphillion for a family of sets of the numbers 0, 1, 2, ...:

      <id> <index> <lo> <hi>        one line for each node, in any order
      .

    [index] is the element tested at the node, [lo] and [hi] lead to the sets without and with it; a branch is B (no set),
    T (the empty set) or the identifier of a node with a larger index.  Lines that start with another character than a digit
    or white space carry no node (the final "." is one of them). *)
From Coq Require Import Ascii String.
From Verif Require Import Base S_Text.
Local Open Scope nat_scope.

Inductive gref := GB | GT | GId (id : nat).
Record gline := GLine { g_id : nat; g_index : nat; g_lo : gref; g_hi : gref }.

Definition read_gref (w : string) : option gref :=
  if String.eqb w "B" then Some GB else if String.eqb w "T" then Some GT else k ← number_of w; Some (GId k).
Definition read_gline (line : list ascii) : option gline :=
  match words_of line with
  | [a; b; c; d] => id ← number_of a; i ← number_of b; r0 ← read_gref c; r1 ← read_gref d; Some (GLine id i r0 r1)
  | _ => None
  end.
(** white space: the blank and the control characters 9 to 13 *)
Definition white (c : ascii) : bool := let k := nat_of_ascii c in ((9 <=? k) && (k <=? 13)) || (k =? 32).
Fixpoint read_glines (ls : list (list ascii)) : option (list gline) :=
  match ls with
  | [] => Some []
  | [] :: _ => None
  | (c :: l) :: ls =>
      if white c then None else
      match digit_of c with
      | Some _ => g ← read_gline (c :: l); gs ← read_glines ls; Some (g :: gs)
      | None => read_glines ls
      end
  end.
(** The nodes of a text. *)
Definition graphillion (txt : list ascii) : option (list gline) := ls ← lines_of txt; read_glines ls.

(** The sets under a branch, as ascending lists. *)
Inductive member (nodes : list gline) : gref -> list nat -> Prop :=
| m_top : member nodes GT []
| m_lo l p : l ∈ nodes -> member nodes (g_lo l) p -> member nodes (GId (g_id l)) p
| m_hi l p : l ∈ nodes -> member nodes (g_hi l) p -> member nodes (GId (g_id l)) (g_index l :: p).

(** [g] may be a branch of a node with the index [i]. *)
Definition branch_ok (nodes : list gline) (i : nat) (g : gref) : Prop :=
  match g with GId k => exists l, l ∈ nodes /\ g_id l = k /\ i < g_index l | _ => True end.
(** A ZDD with the root [r]: identifiers are different, indices grow along the branches and the index of the root is smaller
    than the others; identifiers and indices fit into the machine words. *)
Record gfile_ok (nodes : list gline) (r : gline) : Prop := {
  gf_root : r ∈ nodes /\ forall l, l ∈ nodes -> l = r \/ g_index r < g_index l;
  gf_distinct : forall j j' l l', nodes !! j = Some l -> nodes !! j' = Some l' -> g_id l = g_id l' -> j = j';
  gf_branch : forall l, l ∈ nodes -> branch_ok nodes (g_index l) (g_lo l) /\ branch_ok nodes (g_index l) (g_hi l);
  gf_range : forall l, l ∈ nodes -> (Z.of_nat (g_id l) < 2 ^ 62 /\ Z.of_nat (g_index l) < 2 ^ 31 - 1)%Z
}.
(** The largest index. *)
Definition last_index (nodes : list gline) : nat := foldr Nat.max 0 (map g_index nodes).
