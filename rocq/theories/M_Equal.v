(** Model of DdStructure::operator== (DdStructure.hpp 308-350). *)
From Verif Require Import Base M_Table M_Hash M_Reducer.

(** entries of MyHashMap<InitializedNode<ARITY>,size_t> (MyHashTable.hpp 501-615): hashed and compared by key *)
Definition m_hash (e : node * nat) : N := node_hash (fst e).
Definition m_eqb (e e' : node * nat) : bool := node_eqb (fst e) (fst e').

(** DdStructure.hpp 329-331: uniq[diagram[i][j]] = j, with operator[] of MyHashTable.hpp 602-604 *)
Definition eq_enter (r : list node) (u : htable (node * nat)) (j : nat) : option (htable (node * nat)) :=
  p ← r !! j;
  '(u', s) ← ht_add m_hash m_eqb u (p, 0);
  ht_modify u' s (fun e => (fst e, j)).

(** DdStructure.hpp 337-345 for one node of the other diagram; [canon equiv f] is equiv[f.row()][f.col()] *)
Definition eq_lookup (i m : nat) (u : htable (node * nat)) (equiv : list (list nid)) (q : node) : option nid :=
  q' ← mapM (canon equiv) q;
  p ← ht_get m_hash m_eqb u (q', 0);
  match p with
  | Some s => e ← ht_at u s; Some (mk i (snd e))
  | None => Some (mk i m)
  end.

(** DdStructure.hpp 325-347: one level *)
Definition eq_level (t o : table) (equiv : list (list nid)) (i : nat) : option (list (list nid)) :=
  r ← t !! i;
  u ← ofor (length r) (eq_enter r) (ht_init (length r * 2));
  ro ← o !! i;
  l ← mapM (eq_lookup i (length r) u equiv) ro;
  _ ← equiv !! i;
  Some (<[i := l]> equiv).

(** DdStructure.hpp 315-349 *)
Definition dd_eq_core (d o : dd) : option bool :=
  let n := row (rt d) in
  o0 ← tab o !! 0;
  let equiv := map (mk 0) (seq 0 (length o0)) :: replicate n [] in
  equiv ← ofold (eq_level (tab d) (tab o)) (seq 1 n) equiv;
  f ← canon equiv (rt o);
  Some (neqb (rt d) f).

(** DdStructure.hpp 308-350.  [same]: do the two structures share one node table object
    (&*diagram == &*o.diagram)?  The recursive call of line 313 cannot recur again, because the
    sizes are then in order. *)
Definition dd_eq (same : bool) (d o : dd) : option bool :=
  if negb (row (rt d) =? row (rt o)) then Some false
  else if row (rt d) =? 0 then Some (neqb (rt d) (rt o))
  else if neqb (rt d) (rt o) && same then Some true
  else if table_size (tab o) <? table_size (tab d) then dd_eq_core o d else dd_eq_core d o.
