(** Model of NodeTableEntity::getZeroDescendant (NodeTable.hpp 230-237). *)
From Verif Require Import Base M_Table.

(** NodeTable.hpp 233-235: while (f.row() > stopLevel) f = child(f, 0); [fuel] bounds the iterations,
    levels decrease, so row f are enough. *)
Fixpoint zero_loop (t : table) (fuel : nat) (f : nid) (l : nat) : option nid :=
  if row f <=? l then Some f else
  match fuel with
  | O => None
  | S k => g ← child t f 0; zero_loop t k g l
  end.
(** NodeTable.hpp 230-237 *)
Definition get_zero_descendant (t : table) (f : nid) (l : nat) : option nid :=
  if (l =? 0) && hasEmpty f then Some n1 else zero_loop t (row f) f l.
