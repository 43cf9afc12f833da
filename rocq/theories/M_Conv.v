(** Model of the conversions and simple constructors of DdStructure.hpp. *)
From Verif Require Import Base Sem M_Table M_Engine M_Ops M_Builder.

(** DdStructure.hpp 416-420: the structure is used as a specification (677-697), BddUnreduction inserts the
    skipped levels, ZddLookahead leaves out the levels a ZDD may skip. *)
Definition bdd2zdd (nv : Z) (d : dd) : option dd := construct_dd (zdd_lookahead (bdd_unreduction (dd_spec d) nv)).
(** DdStructure.hpp 426-430 *)
Definition zdd2bdd (nv : Z) (d : dd) : option dd := construct_dd (bdd_lookahead (zdd_unreduction (dd_spec d) nv)).
(** the same with useMP *)
Definition bdd2zdd_mp (nv : Z) (threads tasks : nat) (sched : nat -> list (nat * nat)) (d : dd) : option dd :=
  construct_mp (zdd_lookahead (bdd_unreduction (dd_spec d) nv)) threads tasks sched.
Definition zdd2bdd_mp (nv : Z) (threads tasks : nat) (sched : nat -> list (nat * nat)) (d : dd) : option dd :=
  construct_mp (bdd_lookahead (zdd_unreduction (dd_spec d) nv)) threads tasks sched.

(** DdStructure.hpp 64-66 with NodeTableHandler() (one row): the default constructor *)
Definition empty_dd (a : nat) : dd := Dd a (init_table a 0) n0.
(** DdStructure.hpp 82-97: the universal constructor; initRow leaves the branches unset *)
Definition universal (a n : nat) : option dd :=
  '(t, f) ← ofold (fun '(t, f) i =>
       t1 ← set_row t i [junk_node a];
       t2 ← ofor a (fun t b => tset_child t (mk i 0) b f) t1;
       Some (t2, mk i 0)) (seq 1 n) (init_table a n, n1);
  Some (Dd a t f).
