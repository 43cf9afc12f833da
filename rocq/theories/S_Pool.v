(** What a user expects of memory pools: the memory of each allocation is the program's own, holding what the program
    wrote to it, until the pool is cleared, reused or destructed. *)
From Verif Require Import Base M_Mem M_Pool.
From stdpp Require Import gmap.

(** the contents of the allocations in use; whether only small or very large requests were served since the pool was cleared *)
Record vpool := VPool { vallocs : list (list cell); vsmall : bool }.
Notation vpools := (gmap nat vpool).

Section spec.
Context (BU ME : nat).
(** None: the program uses a pool that does not exist, writes beyond what it asked for, splices a pool with itself, or calls
    reuse() after a request of more than ME but less than BU - 1 units (see the refutations) *)
(** n bytes are (n + 7) / 8 units of 8 bytes *)
Definition pv_exec (m : vpools) (c : pop) : option vpools :=
  match c with
  | PNew x => match m !! x with None => Some (<[x := VPool [] true]> m) | Some _ => None end
  | PAlloc x n vs =>
      v ← m !! x;
      if length vs <=? (n + 7) / 8
      then Some (<[x := VPool (vallocs v ++ [vs]) (vsmall v && (((n + 7) / 8 <=? ME) || (BU <=? (n + 7) / 8 + 1)))]> m)
      else None
  | PWrite x k vs =>
      v ← m !! x; old ← vallocs v !! k;
      if length vs =? length old then Some (<[x := VPool (<[k := vs]> (vallocs v)) (vsmall v)]> m) else None
  | PClear x => _ ← m !! x; Some (<[x := VPool [] true]> m)
  | PReuse x => v ← m !! x; if vsmall v then Some (<[x := VPool [] true]> m) else None
  | PSplice x y =>
      if x =? y then None else
      v ← m !! x; v' ← m !! y;
      Some (<[y := VPool [] true]> (<[x := VPool (vallocs v ++ vallocs v') (vsmall v && vsmall v')]> m))
  | PMove x y => v ← m !! x; match m !! y with None => Some (<[y := v]> (delete x m)) | Some _ => None end
  | PDestroy x => _ ← m !! x; Some (delete x m)
  end.
Fixpoint pv_run (m : vpools) (l : list pop) : option vpools :=
  match l with [] => Some m | c :: l' => m' ← pv_exec m c; pv_run m' l' end.
End spec.
