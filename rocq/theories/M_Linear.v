(** spec/LinearConstraints.hpp.  The number type T is modelled by Z (no overflow, no rounding).
    std::map<int,T> is the list of its (key, value) pairs in iteration order, i.e. with increasing keys;
    keys are natural numbers (a negative key would index checklists out of range).
    [None] stands for an access out of range or a thrown exception. *)
From Verif Require Import Base Sem.
Local Open Scope Z_scope.

Notation lin_expr := (list (nat * Z)).

(** struct CheckItem (LinearConstraints.hpp 20-44) *)
Record check_item : Type := CheckItem {
  ci_index : nat; ci_weight : Z; ci_addMin : Z; ci_addMax : Z; ci_lb : Z; ci_ub : Z; ci_final : bool
}.

(** the members of LinearConstraints (48-52) and the array size of PodArrayDdSpec
    (DdSpec.hpp, setArraySize; None = not yet set) *)
Record lin : Type := Lin {
  lin_n : nat;
  checklists : list (list check_item);
  arraySize : nat;
  constraintId : nat;
  isFalse : bool;
  podSize : option nat
}.

(** constructor (55-62) *)
Definition lin_new (n : nat) : lin := Lin n (replicate (S n) []) 0 0 false None.

(** [if (w > 0) max += w; else if (w < 0) min += w;] (71-72, 89-90) *)
Definition add_bounds (mm : Z * Z) (w : Z) : Z * Z :=
  if 0 <? w then (fst mm, snd mm + w) else if w <? 0 then (fst mm + w, snd mm) else mm.

(** addConstraint (64-94) *)
Definition lin_add (L : lin) (expr : lin_expr) (lb ub : Z) : option lin :=
  if isFalse L then Some L else
  let mm := foldl (fun mm kw => add_bounds mm (snd kw)) (0, 0) expr in
  if (lb <=? fst mm) && (snd mm <=? ub) then Some L else
  if (ub <? lb) || (snd mm <? lb) || (ub <? fst mm) then
    Some (Lin (lin_n L) (checklists L) (arraySize L) (constraintId L) true (podSize L)) else
  match expr with
  | [] => Some L
  | _ =>
    '(lists, _, _) ← ofold (fun st kw =>
        let '(lists, mm, fc) := st in
        l ← (lists : list (list check_item)) !! (fst kw : nat);
        Some (<[fst kw := l ++ [CheckItem (constraintId L) (snd kw) (fst mm) (snd mm) lb ub fc]]> lists,
              add_bounds mm (snd kw), false))
      expr (checklists L, (0, 0), true);
    Some (Lin (lin_n L) lists (arraySize L) (S (constraintId L)) (isFalse L) (podSize L))
  end.

(** update (96-132), the first inner loop (106-121) for one item.  indexMap entries are None for -1.
    The vector freeIndex is a list whose head is back(). *)
Definition lin_relabel (st : list check_item * list (option nat) * list nat * nat) (t : check_item) :
    option (list check_item * list (option nat) * list nat * nat) :=
  let '(done, im, free, size) := st in
  m ← im !! ci_index t;
  let '(k, free', size') :=
    match m with
    | Some k => (k, free, size)
    | None => match free with [] => (size, free, S size) | k :: free' => (k, free', size) end
    end in
  Some (done ++ [CheckItem k (ci_weight t) (ci_addMin t) (ci_addMax t) (ci_lb t) (ci_ub t) (ci_final t)],
        <[ci_index t := Some k]> im, free', size').

(** the second inner loop (123-128) *)
Definition lin_release (free : list nat) (l : list check_item) : list nat :=
  foldl (fun free t => if ci_final t then ci_index t :: free else free) free l.

(** one level of the loop of update (103-129) *)
Definition lin_level (st : list (list check_item) * list (option nat) * list nat * nat) (i : nat) :
    option (list (list check_item) * list (option nat) * list nat * nat) :=
  let '(lists, im, free, size) := st in
  l ← lists !! i;
  '(l', im', free', size') ← ofold lin_relabel l ([], im, free, size);
  Some (<[i := l']> lists, im', lin_release free' l', size').

(** update (96-132); setArraySize throws when called twice (DdSpec.hpp, PodArrayDdSpec) *)
Definition lin_update (L : lin) : option lin :=
  '(lists, _, _, size) ← ofold lin_level (reverse (seq 1 (lin_n L)))
      (checklists L, replicate (constraintId L) None, [], arraySize L);
  match podSize L with
  | Some _ => None
  | None => Some (Lin (lin_n L) lists size (constraintId L) (isFalse L) (Some size))
  end.

(** getRoot (134-142); the array is left unset when isFalse *)
Definition lin_root (L : lin) : Z * list Z :=
  (if isFalse L then 0 else Z.of_nat (lin_n L), replicate (arraySize L) 0).

(** the loop of getChild (147-157): false = [return 0] *)
Fixpoint lin_items (items : list check_item) (value : list Z) (take : bool) : option (bool * list Z) :=
  match items with
  | [] => Some (true, value)
  | t :: items' =>
      v ← value !! ci_index t;
      let v1 := if take then v + ci_weight t else v in
      if (v1 + ci_addMax t <? ci_lb t) || (ci_ub t <? v1 + ci_addMin t) then
        Some (false, <[ci_index t := v1]> value)
      else
        let v2 := if (ci_lb t <=? v1 + ci_addMin t) && (v1 + ci_addMax t <=? ci_ub t)
                  then ci_lb t - ci_addMin t else v1 in
        let v3 := if ci_final t then 0 else v2 in
        lin_items items' (<[ci_index t := v3]> value) take
  end.

(** getChild (144-160) *)
Definition lin_child (L : lin) (value : list Z) (level : nat) (take : bool) : option (Z * list Z) :=
  list ← checklists L !! level;
  '(ok, value') ← lin_items list value take;
  Some (if ok : bool then (if 1 <=? Z.of_nat level - 1 then Z.of_nat level - 1 else -1) else 0, value').

(** The specification object.  equalTo/hashCode are those of PodArrayDdSpec (DdSpec.hpp), which compare and
    hash the words of the array; here the elements.  An access out of range (None) is mapped to the
    0-terminal; it is proved not to occur. *)
Definition lin_spec (L : lin) : spec := {|
  St := list Z;
  ar := 2;
  get_root := lin_root L;
  get_child := fun s level b => default (0, s) (lin_child L s (Z.to_nat level) (negb (b =? 0)%nat));
  equal_to := fun _ s s' => bool_decide (s = s');
  hash_code := fun _ s => foldl (fun h x => (h + Z.to_N (x mod 2 ^ 64)) * 314159257 mod 2 ^ 64)%N 0%N s
|}.

(** Usage: constructor, addConstraint for each constraint, update. *)
Definition lin_build (n : nat) (cs : list (lin_expr * Z * Z)) : option lin :=
  L ← ofold (fun L c => lin_add L (fst (fst c)) (snd (fst c)) (snd c)) cs (lin_new n);
  lin_update L.
