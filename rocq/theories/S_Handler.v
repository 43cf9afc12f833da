(** What a user expects of DdStructure variables: each one is a value of its own (a table and a root), and every
    operation changes the variable it is applied to and no other. *)
From Verif Require Import Base M_Table M_Handler.
From stdpp Require Import gmap.

Notation values := (gmap nat (table * nid)).

(** one operation on values; None: the history is not one of a correct program (a variable that does not exist or exists
    already, an algorithm without result on its argument) or assigns a variable to itself *)
Definition v_exec (a : nat) (m : values) (c : op) : option values :=
  match c with
  | Construct x rows f => match m !! x with Some _ => None | None => v ← f (new_table a rows); Some (<[x := v]> m) end
  | Copy x y => match m !! x with Some _ => None | None => v ← m !! y; Some (<[x := v]> m) end
  | Assign x y => if x =? y then None else _ ← m !! x; v ← m !! y; Some (<[x := v]> m)
  | Destroy x => _ ← m !! x; Some (delete x m)
  | Reduce x f => '(t, r) ← m !! x; '(_, t', r') ← f t r; Some (<[x := (t', r')]> m)
  | Subset x y lv f =>
      '(t, r) ← m !! x;
      _ ← (match y with None => Some () | Some y => _ ← m !! y; Some () end);
      '(t', r') ← f true t r; Some (<[x := (t', r')]> m)
  | Modify x f => '(t, r) ← m !! x; t' ← f t; Some (<[x := (t', r)]> m)
  | Init x rows => '(_, r) ← m !! x; Some (<[x := (new_table a rows, r)]> m)
  | SetRoot x r => '(t, _) ← m !! x; Some (<[x := (t, r)]> m)
  end.
Fixpoint v_run (a : nat) (m : values) (l : list op) : option values :=
  match l with [] => Some m | c :: l' => m' ← v_exec a m c; v_run a m' l' end.

(** Releasing rows of the input does not change the result of a subsetting algorithm, and the released levels exist.
    (Proved of zddSubset in Props_Handler.v.) *)
Definition release_ok (m : values) (c : op) : Prop :=
  match c with
  | Subset x _ lv f => forall t r, m !! x = Some (t, r) -> f false t r = f true t r /\ Forall (fun i => i < length t) lv
  | _ => True
  end.

(** What variable x holds in a world. *)
Definition view (w : world) (x : nat) : option (table * nid) :=
  '(p, r) ← vars w !! x; o ← hp w !! p; Some (entity o, r).
(** The objects in the heap are those some variable owns. *)
Definition owned (w : world) (p : nat) : Prop := exists x r, vars w !! x = Some (p, r).
