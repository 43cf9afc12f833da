(** DdSpecBase::dumpDot (DdSpec.hpp 93-127) and DdDumper (dd/DdBuilder.hpp 1243-1525): a specification in DOT format.
    Simplifications: as in M_Engine.v states are values and merge_states is the default one, which returns 0, so the cases 1
    and 2 of the switches (1435-1448, 1460-1478) do not occur and nodeId(p) is never 0 (1421). *)
From Coq Require Import Ascii String.
From Verif Require Import Base Sem M_Table M_Hash M_Text.
Local Open Scope nat_scope.

Definition quote : ascii := ascii_of_nat 34.
(** a string in double quotes, two blanks in front *)
Definition dt_quoted (t : text) : text := quote :: t ++ [quote].
(** operator<< of NodeId (Node.hpp 131-135), without attribute *)
Definition dt_name (f : nid) : text := dec (row f) ++ lit ":" ++ dec (col f).
Definition dt_id (f : nid) : text := dt_quoted (dt_name f).

Section dumper.
  Context (sp : spec).
  (** what printLevel and print_state of the specification write *)
  Context (level_text : nat -> text) (state_text : St sp -> nat -> text).

  (** snodeTable, the list of each level newest first; uniqTable; oneId.  An entry of a hash table is the pointer to a node,
      given by its position in the list of its level, and its state. *)
  Record dumper := Dumper { dm_nodes : list (list (St sp)); dm_uniq : list (htable (nat * St sp)); dm_one : nid }.
  (** Hasher (1278-1294) *)
  Definition dm_hash (i : nat) (e : nat * St sp) : N := hash_code sp (Z.of_nat i) (snd e).
  Definition dm_eqb (i : nat) (e e' : nat * St sp) : bool := equal_to sp (Z.of_nat i) (snd e) (snd e').

  (** 1426-1482: the child reached by [b] from a node with state [s] *)
  Definition dm_branch (i : nat) (s : St sp) (acc : dumper * list nid) (b : nat) : option (dumper * list nid) :=
    let '(dm, children) := acc in
    let '(c, s') := get_child sp s (Z.of_nat i) b in
    if (c =? 0)%Z then Some (dm, children ++ [n0])
    else if (c <? 0)%Z then
      let one := if neqb (dm_one dm) n1 then mk 0 2 else dm_one dm in
      Some (Dumper (dm_nodes dm) (dm_uniq dm) one, children ++ [one])
    else
      let ii := Z.to_nat c in
      l ← dm_nodes dm !! ii;
      u ← dm_uniq dm !! ii;
      let jj := length l in
      '(u', slot) ← ht_add (dm_hash ii) (dm_eqb ii) u (jj, s');
      e ← ht_at u' slot;
      Some (Dumper (if fst e =? jj then <[ii := s' :: l]> (dm_nodes dm) else dm_nodes dm) (<[ii := u']> (dm_uniq dm)) (dm_one dm),
            children ++ [mk ii (fst e)]).
  (** 1409-1490: one node; the text, nodeList from [j] on *)
  Definition dm_node (i : nat) (acc : dumper * text * list (list nid)) (js : nat * St sp) : option (dumper * text * list (list nid)) :=
    let '(dm, os, nodes) := acc in
    let '(j, s) := js in
    let os := os ++ lit "  " ++ dt_id (mk i j) ++ lit " [label=" ++ dt_quoted (state_text s i) ++ lit "];" ++ [nl] in
    '(dm, children) ← ofor (ar sp) (dm_branch i s) (dm, []);
    Some (dm, os, children :: nodes).
  (** 1502-1513 *)
  Definition dm_style (b : nat) : text :=
    if b =? 0 then lit "dashed"
    else lit "solid" ++ (if 2 <? ar sp then lit ",color=" ++ (if b =? 1 then lit "blue" else if b =? 2 then lit "red" else lit "green") else []).
  (** 1494-1514; a child is never 1 when oneId is not *)
  Definition dm_edge (one : nid) (i j b : nat) (child : nid) : text :=
    if neqb child n0 then []
    else lit "  " ++ dt_id (mk i j) ++ lit " -> " ++ dt_id (if neqb child n1 then one else child) ++ lit " [style=" ++ dm_style b ++ lit "];" ++ [nl].
  Definition dm_edges (one : nid) (i : nat) (nodes : list (list nid)) : text :=
    concat (imap (fun j children => concat (imap (fun b child => dm_edge one i j b child) children)) nodes).
  (** 1517-1521 *)
  Definition dm_rank (i m : nat) : text :=
    lit "  {rank=same; " ++ dec i ++ concat (map (fun j => lit "; " ++ dt_id (mk i j)) (seq 0 m)) ++ lit "}" ++ [nl].
  (** dumpStep (1402-1525); snodes is emptied node by node *)
  Definition dm_step (acc : dumper * text) (i : nat) : option (dumper * text) :=
    let '(dm, os) := acc in
    snodes ← dm_nodes dm !! i;
    let m := length snodes in
    '(dm, os, nodes) ← ofold (dm_node i) (zip (reverse (seq 0 m)) snodes) (dm, os, []);
    let os := os ++ dm_edges (dm_one dm) i nodes ++ dm_rank i m in
    _ ← dm_uniq dm !! (i - 1);
    Some (Dumper (<[i := []]> (dm_nodes dm)) (<[i - 1 := ht_empty]> (dm_uniq dm)) (dm_one dm), os).

  Definition dt_title (title : text) : text :=
    match title with [] => [] | _ => lit "  labelloc=" ++ dt_quoted (lit "t") ++ lit ";" ++ [nl] ++ lit "  label=" ++ dt_quoted title ++ lit ";" ++ [nl] end.
  (** 1351, 1352, 1368, 1369: the arrow from the title to the root *)
  Definition dt_start (title : text) (root : nid) : text :=
    lit "  " ++ dt_quoted (lit "^") ++ lit " [shape=none,label=" ++ dt_quoted title ++ lit "];" ++ [nl] ++
    lit "  " ++ dt_quoted (lit "^") ++ lit " -> " ++ dt_id root ++ lit " [style=dashed" ++ lit "];" ++ [nl].
  (** 1353, 1354, 1393, 1394 *)
  Definition dt_one (one : nid) : text :=
    lit "  " ++ dt_id one ++ lit " " ++ lit "[shape=square,margin=0.05,width=0,label=" ++ dt_quoted (lit "T") ++ lit "];" ++ [nl].
  (** 1359-1366 *)
  Definition dt_levels (n : nat) : text :=
    concat (map (fun i => lit "  " ++ dec i ++ lit " [shape=none,label=" ++ dt_quoted (level_text i) ++ lit "];" ++ [nl]) (reverse (seq 1 n))) ++
    concat (map (fun i => lit "  " ++ dec (i + 1) ++ lit " -> " ++ dec i ++ lit " [style=invis];" ++ [nl]) (reverse (seq 1 (n - 1)))).
  (** 1389-1392 *)
  Definition dt_hidden (one : nid) : text :=
    concat (map (fun j => lit "  " ++ dt_id (mk 0 j) ++ lit " " ++ lit "[style=invis];" ++ [nl]) (seq 2 (col one - 2))).
  (** dump (1333-1399) of a new DdDumper *)
  Definition dump_dot (title : text) : option text :=
    let '(c, s) := get_root sp in
    let head := lit "digraph " ++ dt_quoted title ++ lit " {" ++ [nl] in
    let foot := lit "}" ++ [nl] in
    if (c =? 0)%Z then Some (head ++ dt_title title ++ foot)
    else if (c <? 0)%Z then Some (head ++ dt_start title n1 ++ dt_one n1 ++ foot)
    else
      let n := Z.to_nat c in
      let os := head ++ dt_levels n ++ dt_start title (mk n 0) in
      let dm := Dumper (<[n := [s]]> (replicate (n + 1) [])) (replicate (n + 1) ht_empty) n1 in
      '(dm, os) ← ofold dm_step (reverse (seq 1 n)) (dm, os);
      Some (os ++ dt_hidden (dm_one dm) ++ dt_one (dm_one dm) ++ foot).
End dumper.
