(** Model of dd/DdSweeper.hpp: the on-the-fly removal of nodes equivalent to the 0-terminal.
    oneSrcPtr (DdSweeper.hpp 152-161) only matters for specifications with a non-default
    merge_states; M_Merge.v has it. *)
From Verif Require Import Base M_Table.

(** DdSweeper.hpp 49-52 *)
Record sweeper := Sw { slev : list nat; dcnt : list nat; allc : nat; maxc : nat }.
(** DdSweeper.hpp 60-62 *)
Definition sw0 : sweeper := Sw [] [] 0 0.

(** MyVector::resize to a not smaller size: new entries are value-initialised *)
Definition grow (m : nat) (l : list nat) : list nat := l ++ replicate (m - length l) 0.

(** DdSweeper.hpp 102-105: for (i = child; i <= current; ++i); [fuel] iterations left *)
Fixpoint sweep_mark (fuel i current : nat) (sl : list nat) : option (list nat) :=
  match fuel with
  | O => Some sl
  | S k => v ← sl !! i;
           if 0 <? v then Some sl
           else sweep_mark k (S i) current (<[i := S current]> sl)
  end.

(** DdSweeper.hpp 111-114: for (i = sweepLevel[current]; i > k; --i) *)
Fixpoint sweep_merge (fuel i k : nat) (dc : list nat) : option (list nat) :=
  match fuel with
  | O => Some dc
  | S n => x ← dc !! k; y ← dc !! i;
           sweep_merge n (i - 1) k (<[i := 0]> (<[k := x + y]> dc))
  end.

(** DdSweeper.hpp 133-137: redirect the branches that refer to swept rows *)
Definition sweep_node (k : nat) (newId : list (list nid)) (p : node) : option node :=
  mapM (fun f => if k <=? row f then r ← newId !! row f; r !! col f else Some f) p.
Definition node_dead (p : node) : bool := forallb (fun f => neqb f n0) p.

(** DdSweeper.hpp 127-149: compact one row; the accumulator is (kept nodes, new ids). *)
Definition sweep_row (k i : nat) (newId : list (list nid)) (r : list node) : option (list node * list nid) :=
  ofold (fun '(kept, ids) p =>
           q ← sweep_node k newId p;
           Some (if node_dead q then (kept, ids ++ [n0])
                 else (kept ++ [q], ids ++ [mk i (length kept)])))
        r ([], []).

(** DdSweeper.hpp 118-150 *)
Definition sweep_rows (k : nat) (t : table) : option (table * list (list nid)) :=
  ofold (fun '(t, newId) i =>
           r ← t !! i;
           '(kept, ids) ← sweep_row k i newId r;
           Some (<[i := kept]> t, <[i := ids]> newId))
        (seq k (length t - k)) (t, replicate (length t) []).

(** DdSweeper.hpp 118-165 *)
Definition sweep (k : nat) (t : table) (root : nid) : option (table * nid) :=
  '(t', newId) ← sweep_rows k t;
  r ← newId !! row root;
  f ← r !! col root;
  Some (t', f).

(** DdSweeper.hpp 92-167 (SWEEP_RATIO = 20) *)
Definition update (sw : sweeper) (t : table) (root : nid) (current low count : nat)
  : option (sweeper * table * nid) :=
  if current <=? 1 then Some (sw, t, root) else
  let '(sl0, dc0) :=
    if length (slev sw) <=? current
    then (grow (S current) (slev sw), grow (S (S current)) (dcnt sw)) else (slev sw, dcnt sw) in
  sl ← sweep_mark (S current - low) low current sl0;
  _ ← dc0 !! current;
  let dc1 := <[current := count]> dc0 in
  r ← t !! current;
  let all := allc sw + length r in
  k ← sl !! (current - 1);
  top ← sl !! current;
  dc ← sweep_merge (top - k) top k dc1;
  let mx := max (maxc sw) all in
  d ← dc !! k;
  if d * 20 <? mx then Some (Sw sl dc all mx, t, root) else
  '(t', root') ← sweep k t root;
  Some (Sw sl (<[k := 0]> dc) (table_size t') mx, t', root').
