(** What a user expects of MyList: a stack of entries, each holding what was written to it. *)
From Verif Require Import Base M_Mem M_List.

(** None: an entry is given more or less data than asked for, an entry that does not exist is used, or an empty list is popped *)
Definition lv_exec (m : list (list cell)) (c : lop) : option (list (list cell)) :=
  match c with
  | LAlloc k vs => if length vs =? (k + 7) / 8 then Some (vs :: m) else None
  | LWrite i vs => old ← m !! i; if length vs =? length old then Some (<[i := vs]> m) else None
  | LPop => match m with [] => None | _ :: m' => Some m' end
  | LClear => Some []
  end.
Fixpoint lv_run (m : list (list cell)) (l : list lop) : option (list (list cell)) :=
  match l with [] => Some m | c :: l' => m' ← lv_exec m c; lv_run m' l' end.
