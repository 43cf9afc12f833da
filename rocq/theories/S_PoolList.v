(** What a user expects of lists on a pool: independent stacks. *)
From Verif Require Import Base M_Mem M_Pool M_PoolList.
From stdpp Require Import gmap.

Notation stacks := (gmap nat (list (list cell))).
Definition qv_exec (m : stacks) (c : qop) : option stacks :=
  match c with
  | QNew x => match m !! x with None => Some (<[x := []]> m) | Some _ => None end
  | QAlloc x k vs => s ← m !! x; if length vs =? (k + 7) / 8 then Some (<[x := vs :: s]> m) else None
  | QWrite x i vs => s ← m !! x; old ← s !! i; if length vs =? length old then Some (<[x := <[i := vs]> s]> m) else None
  | QPop x => s ← m !! x; match s with [] => None | _ :: s' => Some (<[x := s']> m) end
  | QClear x => _ ← m !! x; Some (<[x := []]> m)
  | QReset => Some ((fun _ => []) <$> m)
  end.
Fixpoint qv_run (m : stacks) (l : list qop) : option stacks :=
  match l with [] => Some m | c :: l' => m' ← qv_exec m c; qv_run m' l' end.
