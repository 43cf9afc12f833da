(** Model of DdStructure::dumpSapporo (DdStructure.hpp 699-749). *)
From Coq Require Import Ascii String.
From Verif Require Import Base M_Table M_Index M_Text.
Local Open Scope nat_scope.

(** DataTable<size_t> nodeId: the identifiers given to the nodes of each row *)
Notation id_table := (list (list nat)).

(** DdStructure.hpp 729-740: one branch *)
Definition dump_branch (ids : id_table) (fc : nid) : option text :=
  if neqb fc n0 then Some (lit " F")
  else if neqb fc n1 then Some (lit " T")
  else r ← ids !! row fc; k ← r !! col fc; Some (blank :: dec k).

(** DdStructure.hpp 723-743: one node.  Accumulator: k, nodeId, the text written so far.
    The counter k is a size_t; it stays below twice the number of nodes and does not wrap. *)
Definition dump_node (t : table) (i : nat) (acc : nat * id_table * text) (j : nat)
  : option (nat * id_table * text) :=
  let '(k, ids, os) := acc in
  p ← tget t (mk i j);
  let k := k + 2 in
  r ← ids !! i; _ ← r !! j;
  let ids := <[i := <[j := k]> r]> ids in
  f0 ← p !! 0; s0 ← dump_branch ids f0;
  f1 ← p !! 1; s1 ← dump_branch ids f1;
  Some (k, ids, os ++ (dec k ++ blank :: dec i ++ s0 ++ s1 ++ [nl])).

(** DdStructure.hpp 718-747: one level.  nodeId[i].resize(m) makes m elements whose values do not matter. *)
Definition dump_level (t : table) (lo : list (list nat)) (acc : nat * id_table * text) (i : nat)
  : option (nat * id_table * text) :=
  let '(k, ids, os) := acc in
  r ← t !! i; _ ← ids !! i;
  '(k, ids, os) ← ofor (length r) (dump_node t i) (k, <[i := replicate (length r) 0]> ids, os);
  L ← lo !! i;
  ids ← ofold (fun ids l => _ ← ids !! l; Some (<[l := []]> ids)) L ids;
  Some (k, ids, os).

(** DdStructure.hpp 704-749.  The level index is made on the first call of lowerLevels
    (NodeTable.hpp 321-324).  Reading beyond the end of a row of nodeId is undefined ([None]). *)
Definition dump_sapporo (d : dd) : option text :=
  let t := tab d in
  let n := length t - 1 in
  let l := table_size t in
  '(_, lo) ← make_index t;
  '(k, ids, os) ← ofold (dump_level t lo) (seq 1 n)
      (0, replicate (length t) [],
       (lit "_i " ++ dec n ++ [nl]) ++ (lit "_o 1" ++ [nl]) ++ (lit "_n " ++ dec l ++ [nl]));
  r ← ids !! row (rt d); k1 ← r !! col (rt d);
  Some (os ++ dec k1 ++ [nl]).
