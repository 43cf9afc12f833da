(** What a user expects of vectors: variables holding independent sequences. *)
From Verif Require Import Base M_Vector.
From stdpp Require Import gmap.

Section spec.
Context {T : Type} (dflt : T).
(** the first n elements, padded with default values *)
Definition resized (n : nat) (xs : list T) : list T := take n xs ++ replicate (n - length xs) dflt.
(** None: a vector that does not exist or exists already, an element out of range, self-assignment, pushing an element of the
    vector itself, erasing one element, or erasing a range that is neither at the front nor at the back (see the refutations) *)
Definition vv_exec (m : gmap nat (list T)) (c : vop T) : option (gmap nat (list T)) :=
  let new x xs := match m !! x with None => Some (<[x := xs]> m) | Some _ => None end in
  let old x f := xs ← m !! x; ys ← f xs; Some (<[x := ys]> m) in
  match c with
  | VNew x => new x []
  | VNewN x n => new x (replicate n dflt)
  | VFill x n a => new x (replicate n a)
  | VCopy x y => ys ← m !! y; new x ys
  | VAssign x y => if x =? y then None else ys ← m !! y; old x (fun _ => Some ys)
  | VSwap x y => xs ← m !! x; ys ← m !! y; Some (<[x := ys]> (<[y := xs]> m))
  | VReserve x n => old x Some
  | VInit x n => old x (fun _ => Some (replicate n dflt))
  | VResize x n => old x (fun xs => Some (resized n xs))
  | VErase x i j => old x (fun xs => if (i <=? j) && (j <=? length xs) && ((i =? 0) || (j =? length xs)) then Some (take i xs ++ drop j xs) else None)
  | VErasePos x i => None
  | VClear x => old x (fun _ => Some [])
  | VPush x a => old x (fun xs => Some (xs ++ [a]))
  | VPushOwn x i => None
  | VPop x => old x (fun xs => Some (take (length xs - 1) xs))
  | VSet x i a => old x (fun xs => if i <? length xs then Some (<[i := a]> xs) else None)
  | VDestroy x => _ ← m !! x; Some (delete x m)
  end.
Fixpoint vv_run (m : gmap nat (list T)) (l : list (vop T)) : option (gmap nat (list T)) :=
  match l with [] => Some m | c :: l' => m' ← vv_exec m c; vv_run m' l' end.
End spec.
