(** Model of op/BinaryOperation.hpp, op/Lookahead.hpp and op/Unreduction.hpp.
    States are values: get_copy / destruct (e.g. BinaryOperation.hpp 94-114) are not modelled, nor is
    the layout of the component states inside one word array.  merge_states is the default. *)
From Verif Require Import Base Sem.
Local Open Scope Z_scope.

Definition W64 : N := 2 ^ 64.
(** conversion of an int to size_t *)
Definition zu64 (z : Z) : N := Z.to_N (z mod 2 ^ 64).

Section binary.
  Context (sp1 sp2 : spec).

  (** BinaryOperation.hpp 53-83: level1, state1, level2, state2 *)
  Record bstate := BState { lv1 : Z; st1 : St sp1; lv2 : Z; st2 : St sp2 }.

  (** BinaryOperation.hpp 116-124 *)
  Definition bop_hash (_ : Z) (p : bstate) : N :=
    ((zu64 (lv1 p) * 314159257 + zu64 (lv2 p) * 271828171
     + (if (0 <? lv1 p)%Z then hash_code sp1 (lv1 p) (st1 p) * 171828143 else 0)
     + (if (0 <? lv2 p)%Z then hash_code sp2 (lv2 p) (st2 p) * 141421333 else 0)) mod W64)%N.

  (** BinaryOperation.hpp 126-134 *)
  Definition bop_equal (_ : Z) (p q : bstate) : bool :=
    if negb (lv1 p =? lv1 q) then false
    else if negb (lv2 p =? lv2 q) then false
    else if (0 <? lv1 p) && negb (equal_to sp1 (lv1 p) (st1 p) (st1 q)) then false
    else if (0 <? lv2 p) && negb (equal_to sp2 (lv2 p) (st2 p) (st2 q)) then false
    else true.

  (** BinaryOperation.hpp 172-180.  When the first root is a 0-terminal the code leaves the second
      component state unconstructed; the model carries the root state there (never looked at). *)
  Definition and_root : Z * bstate :=
    let r1 := get_root sp1 in let r2 := get_root sp2 in
    let p := BState (fst r1) (snd r1) (fst r2) (snd r2) in
    if fst r1 =? 0 then (0, p) else
    if fst r2 =? 0 then (0, p) else
    (Z.max (fst r1) (fst r2), p).

  (** BinaryOperation.hpp 182-195 *)
  Definition and_child (p : bstate) (level : Z) (take : nat) : Z * bstate :=
    let r1 := if lv1 p =? level then get_child sp1 (st1 p) level take else (lv1 p, st1 p) in
    if (lv1 p =? level) && (fst r1 =? 0) then (0, BState (lv1 p) (snd r1) (lv2 p) (st2 p)) else
    let r2 := if lv2 p =? level then get_child sp2 (st2 p) level take else (lv2 p, st2 p) in
    if (lv2 p =? level) && (fst r2 =? 0) then (0, BState (fst r1) (snd r1) (lv2 p) (snd r2)) else
    (Z.max (fst r1) (fst r2), BState (fst r1) (snd r1) (fst r2) (snd r2)).

  (** BinaryOperation.hpp 160-205, 507-511; the arity is 2 (line 35). *)
  Definition bdd_and : spec := Spec bstate 2 and_root and_child bop_equal bop_hash.

  (** BinaryOperation.hpp 242-250 *)
  Definition or_root : Z * bstate :=
    let r1 := get_root sp1 in let r2 := get_root sp2 in
    let p := BState (fst r1) (snd r1) (fst r2) (snd r2) in
    if fst r1 <? 0 then (-1, p) else
    if fst r2 <? 0 then (-1, p) else
    (Z.max (fst r1) (fst r2), p).

  (** BinaryOperation.hpp 252-268 *)
  Definition or_child (p : bstate) (level : Z) (take : nat) : Z * bstate :=
    let r1 := if lv1 p =? level then get_child sp1 (st1 p) level take else (lv1 p, st1 p) in
    if (lv1 p =? level) && (fst r1 <? 0) then (-1, BState (lv1 p) (snd r1) (lv2 p) (st2 p)) else
    let r2 := if lv2 p =? level then get_child sp2 (st2 p) level take else (lv2 p, st2 p) in
    if (lv2 p =? level) && (fst r2 <? 0) then (-1, BState (fst r1) (snd r1) (lv2 p) (snd r2)) else
    (Z.max (fst r1) (fst r2), BState (fst r1) (snd r1) (fst r2) (snd r2)).

  (** BinaryOperation.hpp 230-278 *)
  Definition bdd_or : spec := Spec bstate 2 or_root or_child bop_equal bop_hash.

  (** BinaryOperation.hpp 461-469 *)
  Definition union_code (i1 i2 : Z) : Z :=
    if (i1 =? 0) && (i2 =? 0) then 0
    else if (i1 <=? 0) && (i2 <=? 0) then -1
    else Z.max i1 i2.
  Definition union_root : Z * bstate :=
    let r1 := get_root sp1 in let r2 := get_root sp2 in
    (union_code (fst r1) (fst r2), BState (fst r1) (snd r1) (fst r2) (snd r2)).

  (** BinaryOperation.hpp 471-493 *)
  Definition union_child (p : bstate) (level : Z) (take : nat) : Z * bstate :=
    let r1 := if lv1 p =? level then get_child sp1 (st1 p) level take
              else if (take =? 0)%nat then (lv1 p, st1 p) else (0, st1 p) in
    let r2 := if lv2 p =? level then get_child sp2 (st2 p) level take
              else if (take =? 0)%nat then (lv2 p, st2 p) else (0, st2 p) in
    (union_code (fst r1) (fst r2), BState (fst r1) (snd r1) (fst r2) (snd r2)).

  (** BinaryOperation.hpp 449-503 *)
  Definition zdd_union : spec := Spec bstate 2 union_root union_child bop_equal bop_hash.

  (** BinaryOperation.hpp 352-363, 372-383: advance the higher side along its 0-branch until the
      levels agree.  [fuel] bounds the number of iterations (0 is returned when it runs out). *)
  Fixpoint meet (fuel : nat) (i1 : Z) (s1 : St sp1) (i2 : Z) (s2 : St sp2) : Z * (St sp1 * St sp2) :=
    if i1 =? i2 then (i1, (s1, s2)) else
    match fuel with
    | O => (0, (s1, s2))
    | S k =>
        if i2 <? i1 then
          let r := get_child sp1 s1 i1 0 in
          if fst r =? 0 then (0, (snd r, s2)) else meet k (fst r) (snd r) i2 s2
        else
          let r := get_child sp2 s2 i2 0 in
          if fst r =? 0 then (0, (s1, snd r)) else meet k i1 s1 (fst r) (snd r)
    end.

  Definition meet_fuel (i1 i2 : Z) : nat := Z.to_nat i1 + Z.to_nat i2.

  (** BinaryOperation.hpp 346-364 *)
  Definition inter_root : Z * (St sp1 * St sp2) :=
    let r1 := get_root sp1 in let r2 := get_root sp2 in
    if fst r1 =? 0 then (0, (snd r1, snd r2)) else
    if fst r2 =? 0 then (0, (snd r1, snd r2)) else
    meet (meet_fuel (fst r1) (fst r2)) (fst r1) (snd r1) (fst r2) (snd r2).

  (** BinaryOperation.hpp 366-384 *)
  Definition inter_child (p : St sp1 * St sp2) (level : Z) (take : nat) : Z * (St sp1 * St sp2) :=
    let r1 := get_child sp1 (fst p) level take in
    if fst r1 =? 0 then (0, (snd r1, snd p)) else
    let r2 := get_child sp2 (snd p) level take in
    if fst r2 =? 0 then (0, (snd r1, snd r2)) else
    meet (meet_fuel (fst r1) (fst r2)) (fst r1) (snd r1) (fst r2) (snd r2).

  (** BinaryOperation.hpp 303-424 (hash 406-409, equality 411-414) *)
  Definition zdd_intersection : spec :=
    Spec (St sp1 * St sp2) 2 inter_root inter_child
      (fun l p q => equal_to sp1 l (fst p) (fst q) && equal_to sp2 l (snd p) (snd q))
      (fun l p => ((hash_code sp1 l (fst p) * 314159257 + hash_code sp2 l (snd p) * 271828171) mod W64)%N).
End binary.
Arguments BState {sp1 sp2}.
Arguments lv1 {sp1 sp2}.
Arguments st1 {sp1 sp2}.
Arguments lv2 {sp1 sp2}.
Arguments st2 {sp1 sp2}.

(** BinaryOperation.hpp 140-157, 210-226, 283-299, 429-445: the variadic forms nest to the right. *)
Fixpoint nary (op : spec -> spec -> spec) (s : spec) (ss : list spec) : spec :=
  match ss with
  | [] => s
  | s' :: ss' => op s (nary op s' ss')
  end.

Section unary.
  Context (sp : spec).

  (** Lookahead.hpp 44-65: one test of the loop body; branch b agrees with branch 0 *)
  Definition bdd_redundant (s : St sp) (level : Z) : bool :=
    let r0 := get_child sp s level 0 in
    forallb (fun b => let r1 := get_child sp s level b in
                      (fst r0 =? fst r1) && ((fst r0 <=? 0) || equal_to sp (fst r0) (snd r0) (snd r1)))
            (seq 1 (ar sp - 1)).

  (** Lookahead.hpp 43-69; the fuel is the initial level, which bounds the number of rounds. *)
  Fixpoint bdd_look (fuel : nat) (level : Z) (s : St sp) : Z * St sp :=
    match fuel with
    | O => (level, s)
    | S k => if (1 <=? level) && bdd_redundant s level
             then let r0 := get_child sp s level 0 in bdd_look k (fst r0) (snd r0)
             else (level, s)
    end.
  Definition bdd_look_at (r : Z * St sp) : Z * St sp := bdd_look (Z.to_nat (fst r)) (fst r) (snd r).

  (** Lookahead.hpp 36-119 *)
  Definition bdd_lookahead : spec :=
    Spec (St sp) (ar sp) (bdd_look_at (get_root sp))
      (fun s l b => bdd_look_at (get_child sp s l b)) (equal_to sp) (hash_code sp).

  (** Lookahead.hpp 131-138 *)
  Definition zdd_redundant (s : St sp) (level : Z) : bool :=
    forallb (fun b => fst (get_child sp s level b) =? 0) (seq 1 (ar sp - 1)).

  (** Lookahead.hpp 128-143 *)
  Fixpoint zdd_look (fuel : nat) (level : Z) (s : St sp) : Z * St sp :=
    match fuel with
    | O => (level, s)
    | S k => if (1 <=? level) && zdd_redundant s level
             then let r0 := get_child sp s level 0 in zdd_look k (fst r0) (snd r0)
             else (level, s)
    end.
  Definition zdd_look_at (r : Z * St sp) : Z * St sp := zdd_look (Z.to_nat (fst r)) (fst r) (snd r).

  (** Lookahead.hpp 122-193 *)
  Definition zdd_lookahead : spec :=
    Spec (St sp) (ar sp) (zdd_look_at (get_root sp))
      (fun s l b => zdd_look_at (get_child sp s l b)) (equal_to sp) (hash_code sp).

  (** Unreduction.hpp 73-78; [nv] is the numVars argument, getRoot raises it to the root level. *)
  Definition unred_root (nv : Z) : Z * (Z * St sp) :=
    let r := get_root sp in
    if fst r =? 0 then (0, r) else
    let nv' := if nv <=? fst r then fst r else nv in
    (if 0 <? nv' then nv' else -1, r).

  (** Unreduction.hpp 80-92 *)
  Definition unred_child (zdd : bool) (p : Z * St sp) (i : Z) (value : nat) : Z * (Z * St sp) :=
    let fin (q : Z * St sp) := (if 0 <? i - 1 then i - 1 else fst q, q) in
    if fst p =? i then
      let r := get_child sp (snd p) i value in
      if fst r =? 0 then (0, r) else fin r
    else if zdd && negb (value =? 0)%nat then (0, p)
    else fin p.

  (** Unreduction.hpp 35-143 (hash 111-115, equality 117-121) *)
  Definition unreduction (zdd : bool) (nv : Z) : spec :=
    Spec (Z * St sp) (ar sp) (unred_root nv) (unred_child zdd)
      (fun _ p q => if negb (fst p =? fst q) then false
                    else if (0 <? fst p) && negb (equal_to sp (fst p) (snd p) (snd q)) then false else true)
      (fun _ p => ((zu64 (fst p) * 314159257 +
                   (if (0 <? fst p)%Z then hash_code sp (fst p) (snd p) * 271828171 else 0)) mod W64)%N).
  Definition bdd_unreduction := unreduction false.
  Definition zdd_unreduction := unreduction true.
End unary.
