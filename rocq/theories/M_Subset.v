(** ZddSubsetter (dd/DdBuilder.hpp 678-952), ZddSubsetterMP (958-1241) and DdStructure::zddSubset
    (DdStructure.hpp 162-224) as instances of M_Engine.v: the groups of a level are the nodes of that
    level in the input diagram. *)
From Verif Require Import Base Sem M_Table M_Hash M_Sweeper M_Engine M_Builder.
Local Open Scope Z_scope.

(** (f == 1) ? -1 : f.row() *)
Definition kcode (f : nid) : Z := if neqb f n1 then -1 else Z.of_nat (row f).

(** DdBuilder.hpp 935-938: while (f.row() > zerosupLevel) f = input.child(f, 0).
    [fuel] bounds the number of iterations; None when it runs out or on a dangling reference. *)
Fixpoint down_table_loop (t : table) (fuel : nat) (f : nid) (z : Z) : option nid :=
  if Z.of_nat (row f) <=? z then Some f else
  match fuel with
  | O => None
  | S k => g ← child t f 0; down_table_loop t k g z
  end.
(** DdBuilder.hpp 932-940 and 1222-1230 *)
Definition down_table (t : table) (f : nid) (b : nat) (z : Z) : option nid :=
  g ← child t f b; down_table_loop t (row g) g (Z.max 0 z).

(** DdBuilder.hpp 946-950: while (i > zerosupLevel) i = spec.get_child(p, i, 0) *)
Fixpoint down_spec_loop (sp : spec) (fuel : nat) (i : Z) (s : St sp) (z : Z) : option (Z * St sp) :=
  if i <=? z then Some (i, s) else
  match fuel with
  | O => None
  | S k => let r := get_child sp s i 0 in down_spec_loop sp k (fst r) (snd r) z
  end.
(** DdBuilder.hpp 942-951 and 1232-1240 *)
Definition down_spec (sp : spec) (s : St sp) (level : Z) (b : nat) (z : Z) : option (Z * St sp) :=
  let r := get_child sp s level b in down_spec_loop sp (Z.to_nat (fst r)) (fst r) (snd r) (Z.max 0 z).

(** DdBuilder.hpp 729-738, 846-855, 1007-1016, 1162-1171: follow 0-branches of the higher side until
    both are at the same level or one of them is the 0-terminal. *)
Fixpoint sub_meet (sp : spec) (t : table) (fuel : nat) (f : nid) (i : Z) (s : St sp)
  : option (nid * Z * St sp) :=
  if (i =? 0) || (kcode f =? 0) || (i =? kcode f) then Some (f, i, s) else
  match fuel with
  | O => None
  | S k =>
      if i <? kcode f then f' ← down_table t f 0 i; sub_meet sp t k f' i s
      else '(i', s') ← down_spec sp s i 0 (kcode f); sub_meet sp t k f i' s'
  end.
Definition sub_fuel (f : nid) (i : Z) : nat := row f + Z.to_nat i.

(** the value of (n, k) after the loop as a level code: DdBuilder.hpp 740-744, 857-861, 1173-1176 *)
Definition sub_code (f : nid) (i : Z) : Z :=
  if (i <=? 0) || (kcode f <=? 0) then (if (i =? 0) || (kcode f =? 0) then 0 else -1) else i.

(** DdStructure.hpp 188, 215: diagram.derefLevel(i) clears a row of the input after its level is done,
    if the table is not shared (NodeTable.hpp 488-490).  The input as seen while level i is processed:
    the rows i+1..n are empty. *)
Definition input_at (shared : bool) (n i : nat) (t : table) : table :=
  if shared then t else imap (fun r x => if (i <? r)%nat && (r <=? n)%nat then [] else x) t.

(** the child of an output node: DdBuilder.hpp 842-855, 1158-1171 *)
Definition sub_child (sp : spec) (tin : nat -> table) (i g : nat) (s : St sp) (b : nat)
  : option (Z * nat * St sp) :=
  f ← down_table (tin i) (mk i g) b (Z.of_nat i - 1);
  '(ii, s1) ← down_spec sp s (Z.of_nat i) b (kcode f);
  '(f', ii', s2) ← sub_meet sp (tin i) (sub_fuel f ii) f ii s1;
  Some (sub_code f' ii', col f', s2).

(** number of groups of a level: input[i].size() (DdBuilder.hpp 779, 784, 903) *)
Definition sub_groups (t : table) (i : nat) : nat :=
  match t !! i with Some r => length r | None => 0%nat end.

(** initialize (DdBuilder.hpp 721-765, 999-1042) and the loop of zddSubset_ / zddSubsetMP_
    (DdStructure.hpp 176-224) *)
Definition zdd_subset_gen (threads : nat) (sched : nat -> list (nat * nat)) (single shared : bool)
    (d : dd) (sp : spec) : option dd :=
  let '(c, s) := get_root sp in
  '(f, i, s') ← sub_meet sp (tab d) (sub_fuel (rt d) c) (rt d) c s;
  let n := sub_code f i in
  if n <=? 0 then Some (Dd (ar sp) (init_table (ar sp) 0) (if n =? 0 then n0 else n1))
  else
    let n := Z.to_nat n in
    '(t, root) ← build (ar sp) (sp_hash sp) (sp_eqb sp) threads (sub_groups (tab d))
                   (sub_child sp (fun i => input_at shared n i (tab d))) sched single n (col f) s';
    Some (Dd (ar sp) t root).

(** zddSubset with useMP = false: groups in order, one thread, no hash table for singletons *)
Definition zdd_subset (shared : bool) (d : dd) (sp : spec) : option dd :=
  zdd_subset_gen 1 (fun i => map (fun g => (g, 0%nat)) (seq 0 (sub_groups (tab d) i))) true shared d sp.
(** zddSubset with useMP = true *)
Definition zdd_subset_mp (threads : nat) (sched : nat -> list (nat * nat)) (shared : bool)
    (d : dd) (sp : spec) : option dd :=
  zdd_subset_gen threads sched false shared d sp.
