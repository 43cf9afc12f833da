(** util/MyList.hpp 33-332: lists of variable sized entries, packed downwards in blocks of cells.
    Simplifications: sizes do not wrap at 2^64; comparing with a pointer past the end of a block is allowed. *)
From Verif Require Import Base M_Mem.
From stdpp Require Import gmap.

(** front_, size_ (41-42) *)
Record mylist := MyList { l_front : ptr; l_size : nat }.
(** 70-72 *)
Definition mylist0 : mylist := MyList None 0.
(** headerCells (35) *)
Definition headerCells : nat := 1.
(** numCells (44-46) *)
Definition numCells (n : nat) : nat := (n + 7) / 8.
(** p->next (38-40) *)
Definition l_next (h : mem) (p : ptr) : option (bool * ptr) := c ← m_get h p; c_ptr c.
(** blockStart(p) (61-63), read and written *)
Definition blockStart (h : mem) (p : ptr) : option ptr := q ← p_sub p 1; '(_, b) ← l_next h q; Some b.
Definition set_blockStart (h : mem) (p : ptr) (b : ptr) : option mem := q ← p_sub p 1; m_set h q (Ptr false b).
(** dataStart(p) (65-67) *)
Definition dataStart (p : ptr) : ptr := p_add p 1.
(** p < q for pointers into one block *)
Definition p_lt (p q : ptr) : option bool :=
  match p, q with Some (b, o), Some (b', o') => if b =? b' then Some (o <? o') else None | _, _ => None end.

Section list.
(** BLOCK_ELEMENTS (33), and the addresses returned by new[] *)
Context (BE : nat) (alloc : mem -> nat).

(** alloc_front (159-181) for entries of k = numElements * sizeof(T) bytes *)
Definition alloc_front (h : mem) (l : mylist) (k : nat) : option (mem * mylist * ptr) :=
  let n := numCells k + 1 in
  '(h', f) ←
    (full ← (match l_front l with
             | None => Some true
             | Some _ => b ← blockStart h (l_front l); p_lt (l_front l) (p_add b (headerCells + n))
             end);
     if full : bool then
       let m := headerCells + n * BE in
       let '(h1, b) := m_new alloc h m in
       newFront ← p_sub (p_add (Some (b, 0)) m) n;
       h2 ← set_blockStart h1 newFront (Some (b, 0));
       h3 ← m_set h2 newFront (Ptr true (l_front l));
       Some (h3, newFront)
     else
       newFront ← p_sub (l_front l) n;
       b ← blockStart h (l_front l);
       h1 ← set_blockStart h newFront b;
       h2 ← m_set h1 newFront (Ptr false (l_front l));
       Some (h2, newFront));
  Some (h', MyList f (l_size l + 1), dataStart f).
(** pop_front (184-197) *)
Definition pop_front (h : mem) (l : mylist) : option (mem * mylist) :=
  '(flag, next) ← l_next h (l_front l);
  if flag : bool then
    b ← blockStart h (l_front l); h' ← m_del h b; Some (h', MyList next (l_size l - 1))
  else
    b ← blockStart h (l_front l); h' ← set_blockStart h next b; Some (h', MyList next (l_size l - 1)).
(** the inner loop of clear (126-128): follow next until it is flagged *)
Fixpoint to_flag (fuel : nat) (h : mem) (p : ptr) : option ptr :=
  match fuel with
  | 0 => None
  | S f => '(flag, q) ← l_next h p; if flag : bool then Some q else to_flag f h q
  end.
(** clear (122-134); the number of steps is bounded by size_ *)
Fixpoint lclear_loop (fuel n : nat) (h : mem) (p : ptr) : option mem :=
  match p with
  | None => Some h
  | Some _ => match fuel with
              | 0 => None
              | S f => q ← to_flag n h p; b ← blockStart h p; h' ← m_del h b; lclear_loop f n h' q
              end
  end.
Definition list_clear (h : mem) (l : mylist) : option (mem * mylist) :=
  h' ← lclear_loop (l_size l) (l_size l) h (l_front l); Some (h', mylist0).
(** begin, end, ++ and * of the iterators (199-289): the addresses of the entries *)
Fixpoint iterate (fuel : nat) (h : mem) (p : ptr) : option (list ptr) :=
  match p with
  | None => Some []
  | Some _ => match fuel with
              | 0 => None
              | S f => '(_, q) ← l_next h p; r ← iterate f h q; Some (dataStart p :: r)
              end
  end.

(** ** Programs using one list.  [l_hands] are the pointers, with their sizes in cells, the program got and may use. *)
Record lworld := LWorld { l_mem : mem; l_list : mylist; l_hands : list (ptr * nat) }.
Inductive lop :=
| LAlloc (k : nat) (vs : list cell)   (** p = x.alloc_front(...), and the memory is initialised with vs *)
| LWrite (i : nat) (vs : list cell)   (** the i-th entry is overwritten *)
| LPop                                (** x.pop_front() *)
| LClear.                             (** x.clear(), ~MyList *)
Definition lexec (w : lworld) (c : lop) : option lworld :=
  let h := l_mem w in
  match c with
  | LAlloc k vs => '(h1, l1, q) ← alloc_front h (l_list w) k; h2 ← m_write h1 q vs; Some (LWorld h2 l1 ((q, length vs) :: l_hands w))
  | LWrite i vs => '(q, n) ← l_hands w !! i; h1 ← m_write h q vs; Some (LWorld h1 (l_list w) (l_hands w))
  | LPop => '(h1, l1) ← pop_front h (l_list w); Some (LWorld h1 l1 (tail (l_hands w)))
  | LClear => '(h1, l1) ← list_clear h (l_list w); Some (LWorld h1 l1 [])
  end.
Fixpoint lexec_all (w : lworld) (l : list lop) : option lworld :=
  match l with [] => Some w | c :: l' => w' ← lexec w c; lexec_all w' l' end.
End list.
Definition lworld0 (h : mem) : lworld := LWorld h mylist0 [].
(** what the program reads through its pointers *)
Definition lview (w : lworld) : option (list (list cell)) := mapM (fun '(q, n) => m_read (l_mem w) q n) (l_hands w).
