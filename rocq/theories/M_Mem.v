(** Memory for the models of the containers that manage raw blocks (util/MemoryPool.hpp, util/MyList.hpp): a heap of blocks
    of pointer-sized cells.  A pointer is a block and a cell offset.  new[] returns any free address and uninitialised cells;
    delete[] needs the start of a live block; access outside a live block is undefined (None). *)
From Verif Require Import Base.
From stdpp Require Import gmap.

Definition ptr := option (nat * nat).
(** a cell holds client data or a pointer, which may carry the low order bit flag of MyList.hpp 47-58 *)
Inductive cell := Uninit | Raw (x : N) | Ptr (flag : bool) (p : ptr).
Notation mem := (gmap nat (list cell)).
#[export] Instance cell_eq : EqDecision cell.
Proof. solve_decision. Defined.

Section mem.
Context (alloc : mem -> nat).
(** new Cell[m] *)
Definition m_new (h : mem) (m : nat) : mem * nat := let b := alloc h in (<[b := replicate m Uninit]> h, b).
End mem.
(** delete[] p *)
Definition m_del (h : mem) (p : ptr) : option mem :=
  match p with
  | Some (b, 0) => match h !! b with Some _ => Some (delete b h) | None => None end
  | None => Some h
  | _ => None
  end.
(** *p, *p = c, p + k, p - k *)
Definition m_get (h : mem) (p : ptr) : option cell := '(b, o) ← p; c ← h !! b; c !! o.
Definition m_set (h : mem) (p : ptr) (x : cell) : option mem :=
  '(b, o) ← p; c ← h !! b; if o <? length c then Some (<[b := <[o := x]> c]> h) else None.
Definition p_add (p : ptr) (k : nat) : ptr := '(b, o) ← p; Some (b, o + k).
Definition p_sub (p : ptr) (k : nat) : option ptr := '(b, o) ← p; if k <=? o then Some (Some (b, o - k)) else None.
(** a cell read as a pointer *)
Definition c_ptr (c : cell) : option (bool * ptr) := match c with Ptr f p => Some (f, p) | _ => None end.

(** writing and reading consecutive cells *)
Fixpoint m_write (h : mem) (p : ptr) (vs : list cell) : option mem :=
  match vs with [] => Some h | v :: vs' => h' ← m_set h p v; m_write h' (p_add p 1) vs' end.
Fixpoint m_read (h : mem) (p : ptr) (n : nat) : option (list cell) :=
  match n with 0 => Some [] | S n' => v ← m_get h p; vs ← m_read h (p_add p 1) n'; Some (v :: vs) end.
