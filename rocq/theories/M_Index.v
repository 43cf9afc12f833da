(** The level index of NodeTableEntity (dd/NodeTable.hpp 239-324). *)
From Verif Require Import Base M_Table.

(** NodeTable.hpp 284-294 (and 268-281, the parallel loop, whose data races only concern flags that
    all threads set to the same value): body for one branch.
    Accumulator: lowest, lowerMark, myLower. *)
Definition mark_branch (acc : nat * list bool * list bool) (g : nid) : option (nat * list bool * list bool) :=
  let '(lowest, lm, my) := acc in
  let ii := row g in
  if ii =? 0 then Some acc else
  v ← lm !! ii;
  if (v : bool) then Some (min lowest ii, lm, my)
  else _ ← my !! ii; Some (min lowest ii, <[ii := true]> lm, <[ii := true]> my).

(** NodeTable.hpp 259-302: one level.  Accumulator: higherLevelTable, lowerLevelTable, lowerMark.
    The two loops over the nodes and their branches are one loop over all branches. *)
Definition index_level (t : table) (acc : list (list nat) * list (list nat) * list bool) (i : nat)
  : option (list (list nat) * list (list nat) * list bool) :=
  let '(hi, lo, lm) := acc in
  r ← t !! i;
  '(lowest, lm', my) ← ofold mark_branch (concat r) (i, lm, replicate (length t) false);
  h ← hi !! lowest;
  Some (<[lowest := h ++ [i]]> hi,
        <[i := List.filter (fun ii => default false (my !! ii)) (seq lowest (i - lowest))]> lo, lm').

(** NodeTable.hpp 251-303: the pair (higherLevelTable, lowerLevelTable) *)
Definition make_index (t : table) : option (list (list nat) * list (list nat)) :=
  let N := length t in
  '(hi, lo, _) ← ofold (index_level t) (reverse (seq 1 (N - 1)))
                   (replicate N [], replicate N [], replicate N false);
  Some (hi, lo).
