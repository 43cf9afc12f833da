(** util/IntSubset.hpp and spec/SizeConstraint.hpp.  Machine ints are modelled by Z: the counters of
    SizeConstraint stay within 0..n, so no overflow is hidden. *)
From Verif Require Import Base Sem.
Local Open Scope Z_scope.

(** struct IntSubset (IntSubset.hpp 31-44): virtual contains, lowerBound, upperBound. *)
Record int_subset : Type := IntSubset {
  contains : Z -> bool;
  lowerBound : Z;
  upperBound : Z
}.

(** INT_MAX (default of upperBound, IntSubset.hpp 41-43) *)
Definition int_max : Z := 2147483647.

(** class IntRange (IntSubset.hpp 46-71).  [%] is Z.rem; step = 0 is undefined in C++ (Z.rem x 0 = x here). *)
Definition int_range (mn mx step : Z) : int_subset := {|
  contains := fun x => if (x <? mn) || (mx <? x) then false else Z.rem (x - mn) step =? 0;
  lowerBound := mn;
  upperBound := mx
|}.

(** SizeConstraint::getRoot (SizeConstraint.hpp 52-55); a null constraint is [None]. *)
Definition size_root (n : Z) (cons : option int_subset) : Z * Z :=
  (match cons with
   | Some c => if n <? lowerBound c then 0 else n
   | None => n
   end, 0).

(** SizeConstraint::getChild (SizeConstraint.hpp 57-69) *)
Definition size_child (cons : option int_subset) (count : Z) (level : Z) (value : nat) : Z * Z :=
  match cons with
  | None => (if 1 <=? level - 1 then level - 1 else -1, count)
  | Some c =>
      let last (count : Z) : Z * Z :=
        (if 1 <=? level - 1 then level - 1 else if contains c count then -1 else 0, count) in
      if negb (value =? 0)%nat then
        if upperBound c <=? count then (0, count) else last (count + 1)
      else
        if count + level <=? lowerBound c then (0, count) else last count
  end.

(** class SizeConstraint (SizeConstraint.hpp 35-70) with the inherited operations of
    DdSpec<SizeConstraint,int,2> (DdSpec.hpp: equalTo is ==, hashCode is rawHashCode of one unsigned int). *)
Definition size_spec (n : Z) (cons : option int_subset) : spec := {|
  St := Z;
  ar := 2;
  get_root := size_root n cons;
  get_child := size_child cons;
  equal_to := fun _ s s' => s =? s';
  hash_code := fun _ s => (Z.to_N (s mod 2 ^ 32) * 314159257 mod 2 ^ 64)%N
|}.
