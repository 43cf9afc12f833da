(** The option -colored of the program ddqueens (apps/ddqueens/ddqueens.cpp 138-171).  A parallel construction may run under
    any schedule, so the program is a relation between the size of the board and the final diagram. *)
From Verif Require Import Base Sem M_Table M_Conv M_Queen M_Color Props_Reduce S_Api.
Local Open Scope nat_scope.

(** 139-144: nqs[k] is NQueenZdd(n, k), constructed and reduced *)
Definition dc_boards (n : nat) (nqs : list dd) : Prop :=
  length nqs = n /\
  forall k d, nqs !! k = Some d -> exists d0, constructed (queen_spec (queens_first n k false)) d0 /\ reduction false true d0 d.
(** 151-155: nqk *)
Definition dc_only (nqs : list dd) (dc : dd) (k : nat) : list dd := imap (fun kk d => if kk =? k then d else dc) nqs.
(** 157-161: ddk *)
Definition dc_one (nqs : list dd) (oh dc : dd) (k : nat) (ddk : dd) : Prop :=
  exists d, subsetted oh (colored (dc_only nqs dc k)) d /\ reduction false true d ddk.
(** 150-170: dd after the body of the loop for k *)
Inductive dc_loop (n : nat) (nqs : list dd) (oh dc : dd) : nat -> dd -> Prop :=
| dc_first k ddk : k = n - 1 -> dc_one nqs oh dc k ddk -> dc_loop n nqs oh dc k ddk
| dc_next k d ddk d1 d2 : dc_loop n nqs oh dc (S k) d -> dc_one nqs oh dc k ddk ->
    subsetted d (dd_spec ddk) d1 -> reduction false true d1 d2 -> dc_loop n nqs oh dc k d2.
(** 138-171 *)
Definition ddqueens_colored (n : nat) (d : dd) : Prop :=
  exists nqs oh dc, dc_boards n nqs /\ constructed (one_hot n (n * n)) oh /\ universal 2 (n * n) = Some dc /\ dc_loop n nqs oh dc 0 d.
