(** Model of dd/DdReducer.hpp (without garbageCollect, see M_Gc.v) and DdStructure::reduce. *)
From Verif Require Import Base M_Table M_Hash M_Index.

(** Node.hpp 171-177, with NodeId::code (Node.hpp 99-101): row in the bits from 44, column below 43. *)
Definition idcode (f : nid) : N := (N.of_nat (row f) * 2 ^ 44 + N.of_nat (col f))%N.
Definition node_hash (p : node) : N :=
  match p with
  | [] => 0%N
  | f :: p' => fold_left (fun h g => (h * 314159257 + idcode g * 271828171) mod 2 ^ 64)%N p' (idcode f)
  end.

(** hash table entries: DdReducer.hpp 344-345 (pointers to nodes) and 41-69 (ReducNodeInfo):
    a column of the level and the node in it; hash and equality are those of the node. *)
Definition e_hash (e : nat * node) : N := node_hash (snd e).
Definition e_eqb (e e' : nat * node) : bool := node_eqb (snd e) (snd e').

(** The state of a reduction (DdReducer.hpp 70-93): input, newIdTable, output and the registered root.
    Several registered roots are not modelled: DdStructure::reduce registers one. *)
Record rstate := RS { s_in : table; s_ids : list (list nid); s_out : table; s_root : nid }.

(** newIdTable[f.row()][f.col()] *)
Definition canon (ids : list (list nid)) (f : nid) : option nid := l ← ids !! row f; l !! col f.

(** DdReducer.hpp 353-362 and 426-433: is the canonical node redundant? *)
Definition node_del (BDD ZDD : bool) (p : node) : option bool :=
  f0 ← head p;
  Some ((BDD || ZDD || neqb f0 n0) && forallb (fun ff => neqb ff (if BDD then f0 else n0)) (tail p)).

(** clear() of the rows in a list of levels (DdReducer.hpp 260-263, 299-302, 381-384, 454-457) *)
Definition clear_rows {A} (L : list nat) (t : list (list A)) : option (list (list A)) :=
  ofold (fun t r => _ ← t !! r; Some (<[r := []]> t)) L t.

(** DdReducer.hpp 367-376 (with i) and 477-491 (with i + x): look up or enter a node in the table *)
Definition uniq_step (i : nat) (acc : htable (nat * node) * list nid * nat) (e : nat * node)
  : option (htable (nat * node) * list nid * nat) :=
  let '(u, newId, jj) := acc in
  '(u', s) ← ht_add e_hash e_eqb u e;
  pp ← ht_at u' s;
  _ ← newId !! fst e;
  if fst pp =? fst e
  then f0 ← head (snd e); Some (u', <[fst e := Nid i jj (hasEmpty f0)]> newId, S jj)
  else ff ← newId !! fst pp; Some (u', <[fst e := ff]> newId, jj).

(** DdReducer.hpp 347-378.  Accumulator: input[i], uniq, newIdTable[i], jj.
    (A branch of a node of level i does not refer to level i itself, so newIdTable[i] is not read
    through [canon].) *)
Definition red_step (BDD ZDD : bool) (i : nat) (ids : list (list nid))
  (acc : list node * htable (nat * node) * list nid * nat) (j : nat)
  : option (list node * htable (nat * node) * list nid * nat) :=
  let '(r, u, newId, jj) := acc in
  f ← r !! j;
  f' ← mapM (canon ids) f;
  del ← node_del BDD ZDD f';
  f0 ← head f';
  if (del : bool)
  then _ ← newId !! j; Some (<[j := f']> r, u, <[j := f0]> newId, jj)
  else '(u', newId', jj') ← uniq_step i (u, newId, jj) (j, f'); Some (<[j := f']> r, u', newId', jj').

(** DdReducer.hpp 388-393 *)
Definition fill_step (i : nat) (r : list node) (newId : list nid) (o : table) (j : nat) : option table :=
  ff ← newId !! j;
  if row ff =? i then p ← r !! j; tset o (mk i (col ff)) p else Some o.

(** DdReducer.hpp 397-400, 327-330, 553-556; the root is registered at level [n] *)
Definition new_root (n i : nat) (newId : list nid) (root : nid) : option nid :=
  if i =? n then newId !! col root else Some root.

(** DdReducer.hpp 338-399 *)
Definition reduce_level (BDD ZDD : bool) (a n : nat) (lo : list (list nat)) (s : rstate) (i : nat) : option rstate :=
  r ← s_in s !! i;
  let m := length r in
  '(r', _, newId, jj) ← ofor m (red_step BDD ZDD i (s_ids s)) (r, ht_init (m * 2), replicate m n0, 0);
  L ← lo !! i;
  _ ← s_ids s !! i;
  ids ← clear_rows L (<[i := newId]> (s_ids s));
  out0 ← set_row (s_out s) i (replicate jj (junk_node a));
  out ← ofor m (fill_step i r' newId) out0;
  root ← new_root n i newId (s_root s);
  Some (RS (<[i := []]> (s_in s)) ids out root).

(** DdReducer.hpp 441-445, 462-475: the nodes of task [x] in the order in which they are entered.
    [chunks] gives for each thread the columns it handled in the first loop (427: static schedule);
    alloc_front makes each thread's list newest-first. *)
Definition task_items (BDD ZDD : bool) (tasks : nat) (r : list node) (chunks : list (list nat)) (x : nat)
  : list (nat * node) :=
  concat (map (fun ch => omap (fun j =>
     p ← r !! j; del ← node_del BDD ZDD p;
     if negb del && (node_hash p mod N.of_nat tasks =? N.of_nat x)%N then Some (j, p) else None)
     (reverse ch)) chunks).

(** DdReducer.hpp 461-495: one task.  Tasks write disjoint columns of newIdTable[i] and disjoint entries
    of baseColumn, so running them one after the other, in any order, gives all parallel executions. *)
Definition mp_task (BDD ZDD : bool) (i tasks : nat) (r : list node) (chunks : list (list nat))
  (acc : list nid * list nat) (x : nat) : option (list nid * list nat) :=
  let '(newId, base) := acc in
  let items := task_items BDD ZDD tasks r chunks x in
  let mm := length items in
  _ ← base !! S x;
  if mm =? 0 then Some (newId, <[S x := 0]> base)
  else '(_, newId', jj) ← ofold (uniq_step (i + x)) items (ht_init (mm * 2), newId, 0);
       Some (newId', <[S x := jj]> base).

(** DdReducer.hpp 508-510 *)
Definition base_step (base : list nat) (x : nat) : option (list nat) :=
  v ← base !! x; w ← base !! S x; Some (<[S x := w + v]> base).

(** DdReducer.hpp 530-539 *)
Definition mp_fill (i : nat) (r : list node) (base : list nat) (acc : list nid * table) (j : nat)
  : option (list nid * table) :=
  let '(newId, o) := acc in
  ff ← newId !! j;
  if i <=? row ff
  then bc ← base !! (row ff - i);
       let ff' := Nid i (col ff + bc) (attr ff) in
       p ← r !! j; o' ← tset o ff' p; Some (<[j := ff']> newId, o')
  else Some acc.

(** DdReducer.hpp 405-561.  The first parallel loop (427-449) handles every column on its own; the third
    (530-539) too, since equal target columns receive equal nodes up to attributes.
    [chunks]: distribution of the columns over the threads; [order]: order of the tasks. *)
Definition mp_level (BDD ZDD : bool) (a n tasks : nat) (chunks : list (list nat)) (order : list nat)
  (lo : list (list nat)) (s : rstate) (i : nat) : option rstate :=
  r0 ← s_in s !! i;
  let m := length r0 in
  r ← mapM (mapM (canon (s_ids s))) r0;
  newId0 ← mapM (fun p => del ← node_del BDD ZDD p; if (del : bool) then head p else Some n0) r;
  L ← lo !! i;
  _ ← s_ids s !! i;
  '(newId1, base) ← ofold (mp_task BDD ZDD i tasks r chunks) order (newId0, replicate (S tasks) 0);
  base' ← ofold base_step (seq 1 (tasks - 1)) base;
  tot ← base' !! tasks;
  out0 ← set_row (s_out s) i (replicate tot (junk_node a));
  '(newId, out) ← ofor m (mp_fill i r base') (newId1, out0);
  ids ← clear_rows L (<[i := newId]> (s_ids s));
  root ← new_root n i newId (s_root s);
  Some (RS (<[i := []]> (s_in s)) ids out root).

(** * Algorithm R (ARITY = 2) *)
(** DdReducer.hpp 161-184: one branch *)
Definition prep_branch (BDD ZDD : bool) (i j : nat) (t : table) (b : nat) : option table :=
  f ← child t (mk i j) b;
  if row f =? 0 then Some t else
  f0 ← child t f 0;
  p ← tget t f;
  if forallb (fun g => neqb g (if BDD then f0 else n0)) (drop (if BDD || ZDD then 1 else 0) p)
  then tset_child t (mk i j) b f0 else Some t.

(** DdReducer.hpp 153-192: makeReadyForSequentialReduction, before makeIndex *)
Definition prep_row (BDD ZDD : bool) (a : nat) (t : table) (i : nat) : option table :=
  r ← t !! i; ofor (length r) (fun t j => ofor a (prep_branch BDD ZDD i j) t) t.
Definition prep (BDD ZDD : bool) (a : nat) (t : table) : option table :=
  ofold (prep_row BDD ZDD a) (seq 2 (length t - 2)) t.

(** DdReducer.hpp 239-240 *)
Definition canonR (ids : list (list nid)) (f : nid) : option nid :=
  if row f =? 0 then Some f else canon ids f.
(** DdReducer.hpp 242, 317 *)
Definition delR (BDD ZDD : bool) (f0 f1 : nid) : bool := (BDD && neqb f1 f0) || (ZDD && neqb f1 n0).

(** DdReducer.hpp 235-257 *)
Definition algR1 (BDD ZDD : bool) (i m : nat) (ids : list (list nid)) (acc : table * list nid) (j : nat)
  : option (table * list nid) :=
  let '(t, newId) := acc in
  let mark := mk i m in
  f0o ← child t (mk i j) 0; f1o ← child t (mk i j) 1;
  f0 ← canonR ids f0o; t1 ← tset_child t (mk i j) 0 f0;
  f1 ← canonR ids f1o; t2 ← tset_child t1 (mk i j) 1 f1;
  _ ← newId !! j;
  if delR BDD ZDD f0 f1 then Some (t2, <[j := f0]> newId)
  else
    f00 ← child t2 f0 0; f01 ← child t2 f0 1;
    '(t3, nx) ← (if negb (neqb f01 mark)
                 then t3 ← tset_child t2 f0 1 mark; Some (t3, mk (i + 1) m)
                 else Some (t2, f00));
    t4 ← tset_child t3 f0 0 (mk (i + 1) j);
    Some (t4, <[j := nx]> newId).

(** DdReducer.hpp 271-295: the inner loop; a chain has at most [m] elements *)
Fixpoint algR_chain (fuel i m j k : nat) (acc : table * list nid * nat) : option (table * list nid * nat) :=
  if k <? m then
    match fuel with
    | O => None
    | S fuel' =>
        let '(t, newId, mm) := acc in
        g0 ← child t (mk i k) 0; g1 ← child t (mk i k) 1;
        g10 ← child t g1 0; g11 ← child t g1 1;
        nk ← newId !! k;
        if negb (neqb g11 (mk i j))
        then t1 ← tset_child t g1 1 (mk i j); t2 ← tset_child t1 g1 0 (mk i k);
             algR_chain fuel' i m j (col nk) (t2, <[k := Nid i mm (hasEmpty g0)]> newId, S mm)
        else t1 ← tset_child t (mk i k) 0 g10; t2 ← tset_child t1 (mk i k) 1 (mk i m);
             algR_chain fuel' i m j (col nk) (t2, <[k := n0]> newId, mm)
    end
  else Some acc.

(** DdReducer.hpp 267-296 *)
Definition algR2 (i m : nat) (acc : table * list nid * nat) (j : nat) : option (table * list nid * nat) :=
  nj ← snd (fst acc) !! j;
  if row nj <=? i then Some acc else algR_chain m i m j j acc.

(** DdReducer.hpp 308-325 *)
Definition algR3 (BDD ZDD : bool) (i m : nat) (t : table) (acc : list nid * table) (j : nat) : option (list nid * table) :=
  let '(newId, o) := acc in
  p ← tget t (mk i j); f0 ← p !! 0; f1 ← p !! 1;
  nj ← newId !! j;
  if neqb f1 (mk i m) then v ← newId !! col f0; Some (<[j := v]> newId, o)
  else if delR BDD ZDD f0 f1 then Some acc
  else o' ← tset o (mk i (col nj)) p; Some (newId, o').

(** DdReducer.hpp 225-332 *)
Definition algR_level (BDD ZDD : bool) (a n : nat) (lo : list (list nat)) (s : rstate) (i : nat) : option rstate :=
  r ← s_in s !! i;
  let m := length r in
  '(t1, newId1) ← ofor_down m (algR1 BDD ZDD i m (s_ids s)) (s_in s, replicate m n0);
  L ← lo !! i;
  _ ← s_ids s !! i;
  '(t2, newId2, mm) ← ofor m (algR2 i m) (t1, newId1, 0);
  t3 ← (if BDD then Some t2 else clear_rows L t2);
  out0 ← set_row (s_out s) i (replicate mm (junk_node a));
  '(newId, out) ← ofor m (algR3 BDD ZDD i m t3) (newId2, out0);
  ids ← clear_rows L (<[i := newId]> (s_ids s));
  root ← new_root n i newId (s_root s);
  Some (RS t3 ids out root).

(** * DdStructure::reduce *)
(** DdReducer.hpp 86-124: constructor (input made private, terminals re-initialised, empty output of
    the same number of rows, new identifiers of the terminals). *)
Definition red_init (d : dd) : rstate :=
  let N := length (tab d) in
  RS (<[0 := terminal_row (d_ar d)]> (tab d)) ([n0; n1] :: replicate (N - 1) [])
     (terminal_row (d_ar d) :: replicate (N - 1) []) (rt d).

(** DdStructure.hpp 390-409 with useMP = false, and DdReducer.hpp 209-219.
    Algorithm R prepares its input when the first level is reduced. *)
Definition reduce_hash (BDD ZDD : bool) (d : dd) : option dd :=
  let n := row (rt d) in
  let s0 := red_init d in
  '(_, lo) ← make_index (s_in s0);
  s ← ofold (reduce_level BDD ZDD (d_ar d) n lo) (seq 1 n) s0;
  Some (Dd (d_ar d) (s_out s) (s_root s)).
Definition reduce_R (BDD ZDD : bool) (d : dd) : option dd :=
  let n := row (rt d) in
  let s0 := red_init d in
  _ ← make_index (s_in s0);
  if n =? 0 then Some (Dd (d_ar d) (s_out s0) (s_root s0)) else
  t1 ← prep BDD ZDD (d_ar d) (s_in s0);
  '(_, lo) ← make_index t1;
  s ← ofold (algR_level BDD ZDD (d_ar d) n lo) (seq 1 n) (RS t1 (s_ids s0) (s_out s0) (s_root s0));
  Some (Dd (d_ar d) (s_out s) (s_root s)).
Definition reduce_seq (BDD ZDD : bool) (d : dd) : option dd :=
  if d_ar d =? 2 then reduce_R BDD ZDD d else reduce_hash BDD ZDD d.

(** DdStructure.hpp 390-409 with useMP = true; [chunks i] and [order i] describe the schedule at level i.
    DdReducer.hpp 94-95: number of tasks. *)
Definition red_tasks (threads : nat) : nat := N.to_nat (primeSize (N.of_nat (10 * threads))).
Definition reduce_mp (threads : nat) (chunks : nat -> list (list nat)) (order : nat -> list nat)
  (BDD ZDD : bool) (d : dd) : option dd :=
  let n := row (rt d) in
  let s0 := red_init d in
  '(_, lo) ← make_index (s_in s0);
  s ← ofold (fun s i => mp_level BDD ZDD (d_ar d) n (red_tasks threads) (chunks i) (order i) lo s i) (seq 1 n) s0;
  Some (Dd (d_ar d) (s_out s) (s_root s)).

(** DdStructure.hpp 362-381: bddReduce, zddReduce, qddReduce *)
Definition bddReduce := reduce_seq true false.
Definition zddReduce := reduce_seq false true.
Definition qddReduce := reduce_seq false false.
