(** util/MyList.hpp 334-587: lists whose entries live in a memory pool. *)
From Verif Require Import Base M_Mem M_Pool.
From stdpp Require Import gmap.

(** front_, size_ (340-341) *)
Record plist := PList { p_front : ptr; p_size : nat }.
(** 360-362; clear (414-417) leaves the memory on the pool *)
Definition plist0 : plist := PList None 0.
(** workCells (347-349) *)
Definition workCells (n : nat) : nat := 1 + (n + 7) / 8.
(** p->next *)
Definition pl_next (h : mem) (p : ptr) : option ptr := c ← m_get h p; '(_, q) ← c_ptr c; Some q.
(** pop_front (457-460) *)
Definition pl_pop (h : mem) (l : plist) : option plist := q ← pl_next h (p_front l); Some (PList q (p_size l - 1)).
(** iterators (462-544): the addresses of the entries *)
Fixpoint pl_iterate (fuel : nat) (h : mem) (p : ptr) : option (list ptr) :=
  match p with
  | None => Some []
  | Some _ => match fuel with 0 => None | S f => q ← pl_next h p; r ← pl_iterate f h q; Some (p_add p 1 :: r) end
  end.

Section plist.
Context (BU ME : nat) (alloc : mem -> nat).
(** alloc_front (444-452) for entries of k = numElements * sizeof(T) bytes; allocate<Cell>(n) asks for 8 * n bytes *)
Definition pl_alloc_front (h : mem) (p : pool) (l : plist) (k : nat) : option (mem * pool * plist * ptr) :=
  let n := workCells k in
  '(h1, p1, newFront) ← pool_alloc BU ME alloc h p (8 * n);
  h2 ← m_set h1 newFront (Ptr false (p_front l));
  Some (h2, p1, PList newFront (p_size l + 1), p_add newFront 1).

(** ** Programs using a pool and several lists on it, with the pointers they hold *)
Record qworld := QWorld { q_mem : mem; q_pool : pool; q_lists : gmap nat (plist * list (ptr * nat)) }.
Inductive qop :=
| QNew (x : nat)                          (** MyListOnPool x; *)
| QAlloc (x k : nat) (vs : list cell)     (** p = x.alloc_front(pool, ...), and the memory is initialised with vs *)
| QWrite (x i : nat) (vs : list cell)     (** the i-th entry of x is overwritten *)
| QPop (x : nat)                          (** x.pop_front() *)
| QClear (x : nat)                        (** x.clear() *)
| QReset.                                 (** clear() on every list, then on the pool *)
Definition qexec (w : qworld) (c : qop) : option qworld :=
  let h := q_mem w in
  match c with
  | QNew x => match q_lists w !! x with None => Some (QWorld h (q_pool w) (<[x := (plist0, [])]> (q_lists w))) | Some _ => None end
  | QAlloc x k vs =>
      '(l, hs) ← q_lists w !! x;
      '(h1, p1, l1, q) ← pl_alloc_front h (q_pool w) l k;
      h2 ← m_write h1 q vs;
      Some (QWorld h2 p1 (<[x := (l1, (q, length vs) :: hs)]> (q_lists w)))
  | QWrite x i vs =>
      '(l, hs) ← q_lists w !! x;
      '(q, n) ← hs !! i;
      h1 ← m_write h q vs;
      Some (QWorld h1 (q_pool w) (q_lists w))
  | QPop x =>
      '(l, hs) ← q_lists w !! x;
      l1 ← pl_pop h l;
      Some (QWorld h (q_pool w) (<[x := (l1, tail hs)]> (q_lists w)))
  | QClear x => _ ← q_lists w !! x; Some (QWorld h (q_pool w) (<[x := (plist0, [])]> (q_lists w)))
  | QReset => '(h1, p1) ← pool_clear BU h (q_pool w); Some (QWorld h1 p1 ((fun _ => (plist0, [])) <$> q_lists w))
  end.
Fixpoint qexec_all (w : qworld) (l : list qop) : option qworld :=
  match l with [] => Some w | c :: l' => w' ← qexec w c; qexec_all w' l' end.
Definition qworld0 : qworld := QWorld ∅ (pool0 BU) ∅.
End plist.
(** what the program reads through its pointers to the entries of x *)
Definition qview (w : qworld) (x : nat) : option (list (list cell)) :=
  '(_, hs) ← q_lists w !! x; mapM (fun '(q, n) => m_read (q_mem w) q n) hs.
