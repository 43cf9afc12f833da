(** Bit level model of NodeId and Node (dd/Node.hpp 33-197): uint64_t is N below 2^64. *)
From Verif Require Import Base.
Local Open Scope N_scope.

(** Node.hpp 33-45 *)
Definition NODE_ROW_BITS : N := 20.
Definition NODE_ATTR_BITS : N := 1.
Definition NODE_COL_BITS : N := 64 - NODE_ROW_BITS - NODE_ATTR_BITS.
Definition NODE_ROW_OFFSET : N := NODE_COL_BITS + NODE_ATTR_BITS.
Definition NODE_ATTR_OFFSET : N := NODE_COL_BITS.
Definition u64 (x : N) : N := x mod 2 ^ 64.
Definition NODE_ROW_MAX : N := u64 (N.shiftl 1 NODE_ROW_BITS) - 1.
Definition NODE_COL_MAX : N := u64 (N.shiftl 1 NODE_COL_BITS) - 1.
Definition NODE_ATTR_MASK : N := u64 (N.shiftl 1 NODE_ATTR_OFFSET).
(** ~x on uint64_t *)
Definition u64_not (x : N) : N := N.lxor x (2 ^ 64 - 1).

(** Node.hpp 57-61 (two arguments) *)
Definition id_make (row col : N) : N := N.lor (u64 (N.shiftl row NODE_ROW_OFFSET)) col.
(** Node.hpp 78-85 *)
Definition id_setAttr (c : N) (val : bool) : N :=
  if val then N.lor c NODE_ATTR_MASK else N.land c (u64_not NODE_ATTR_MASK).
(** Node.hpp 63-68 (three arguments) *)
Definition id_make3 (row col : N) (attr : bool) : N := id_setAttr (id_make row col) attr.
(** Node.hpp 70-72, 74-76, 87-89, 91-93, 95-97 *)
Definition id_row (c : N) : N := N.shiftr c NODE_ROW_OFFSET.
Definition id_col (c : N) : N := N.land c NODE_COL_MAX.
Definition id_getAttr (c : N) : bool := negb (N.land c NODE_ATTR_MASK =? 0).
Definition id_withoutAttr (c : N) : N := N.land c (u64_not NODE_ATTR_MASK).
Definition id_hasEmpty (c : N) : bool := (c =? 1) || id_getAttr c.
(** Node.hpp 99-101, 103-105 *)
Definition id_code (c : N) : N := N.land c (u64_not NODE_ATTR_MASK).
Definition id_hash (c : N) : N := u64 (id_code c * 314159257).
(** Node.hpp 107-129 *)
Definition id_eqb (c d : N) : bool := id_code c =? id_code d.
Definition id_neb (c d : N) : bool := negb (id_eqb c d).
Definition id_ltb (c d : N) : bool := id_code c <? id_code d.
Definition id_geb (c d : N) : bool := negb (id_ltb c d).
Definition id_gtb (c d : N) : bool := id_ltb d c.
Definition id_leb (c d : N) : bool := negb (id_ltb d c).

(** Node.hpp 171-177: the hash of a node, a non-empty array of branches *)
Definition node_hash (p : list N) : N :=
  match p with
  | [] => 0
  | f :: p' => foldl (fun h g => u64 (u64 (h * 314159257) + u64 (id_code g * 271828171))) (id_code f) p'
  end.
(** Node.hpp 179-184 *)
Definition node_eqb64 (p q : list N) : bool := forallb (fun x => negb (id_neb (fst x) (snd x))) (zip p q).
