(** dd/DepthFirstSearcher.hpp.  std::rand() is an arbitrary sequence [rnd]; k counts the calls made so far.
    States are values, so the copies, destructors and the state pool do not appear. *)
From Verif Require Import Base Sem.
Local Open Scope Z_scope.

Section dfs.
Context (sp : spec) (rnd : nat -> nat).

(** the loop for (bb = 0; bb < AR; ++bb) (82-101); [rec] is the recursive call, todo = AR - bb *)
Fixpoint dfs_loop (rec : St sp -> Z -> list (Z * nat) -> nat -> option (bool * list (Z * nat) * nat)) (s : St sp) (i : Z) (b0 : nat)
    (todo bb : nat) (vl : list (Z * nat)) (k : nat) : option (bool * list (Z * nat) * nat) :=
  match todo with
  | O => Some (false, vl, k)
  | S todo' =>
      let b := ((b0 + bb) mod ar sp)%nat in
      let '(ii, s') := get_child sp s i b in
      '(ok, vl', k') ← (if ii <=? 0 then Some (negb (ii =? 0), vl, k) else rec s' ii vl k);
      if (ok : bool) then Some (true, vl' ++ [(i, b)], k') else dfs_loop rec s i b0 todo' (S bb) vl' k'
  end.
(** findOneInstanceStep (77-106), with valueList and the number of rand() calls as state.
    The recursion is on decreasing levels; fuel exhaustion (None) is proved not to happen. *)
Fixpoint dfs_step (fuel : nat) (s : St sp) (i : Z) (vl : list (Z * nat)) (k : nat) : option (bool * list (Z * nat) * nat) :=
  match fuel with
  | O => None
  | S fuel' => dfs_loop (dfs_step fuel') s i (rnd k mod ar sp)%nat (ar sp) 0%nat vl (S k)
  end.

(** findOneInstance (50-74): [Some (Some l)] = returned list, [Some None] = std::runtime_error("No instance") *)
Definition dfs_find : option (option (list (Z * nat))) :=
  let '(n, s) := get_root sp in
  '(ok, vl, _) ← (if n <=? 0 then Some (negb (n =? 0), [], 0%nat) else dfs_step (Z.to_nat n) s n [] 0%nat);
  Some (if (ok : bool) then Some vl else None).
End dfs.
