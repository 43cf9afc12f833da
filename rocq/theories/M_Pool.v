(** util/MemoryPool.hpp 36-160: memory pools.  Blocks are linked through their first unit.
    Simplification: sizes do not wrap at 2^64. *)
From Verif Require Import Base M_Mem.
From stdpp Require Import gmap.

Record pool := Pool { blockList : ptr; nextUnit : nat }.

Section pool.
(** BLOCK_UNITS and MAX_ELEMENT_UNIS (42-43); the code's values are below *)
Context (BU ME : nat) (alloc : mem -> nat).

(** constructors (49-54): copying gives an empty pool *)
Definition pool0 : pool := Pool None BU.
(** (n + UNIT_SIZE - 1) / UNIT_SIZE (132) *)
Definition units (n : nat) : nat := (n + 7) / 8.
(** block->next *)
Definition next_of (h : mem) (b : ptr) : option ptr := c ← m_get h b; '(_, p) ← c_ptr c; Some p.
(** alloc (131-160) *)
Definition pool_alloc (h : mem) (p : pool) (n : nat) : option (mem * pool * ptr) :=
  let e := units n in
  if ME <? e then
    let '(h1, b) := m_new alloc h (e + 1) in
    let blk := Some (b, 0) in
    match blockList p with
    | None => h2 ← m_set h1 blk (Ptr false None); Some (h2, Pool blk (nextUnit p), p_add blk 1)
    | Some _ => r ← next_of h1 (blockList p);
                h2 ← m_set h1 blk (Ptr false r);
                h3 ← m_set h2 (blockList p) (Ptr false blk);
                Some (h3, p, p_add blk 1)
    end
  else
    '(h1, p1) ← (if BU <? nextUnit p + e then
                   let '(h1, b) := m_new alloc h BU in
                   h2 ← m_set h1 (Some (b, 0)) (Ptr false (blockList p));
                   if 1 + e <=? BU then Some (h2, Pool (Some (b, 0)) 1) else None (* the assertion in line 153 *)
                 else Some (h, p));
    Some (h1, Pool (blockList p1) (nextUnit p1 + e), p_add (blockList p1) (nextUnit p1)).
(** clear (95-102) and the loop of reuse (106-110); the number of iterations is bounded by the number of blocks *)
Fixpoint clear_loop (fuel : nat) (h : mem) (b : ptr) : option mem :=
  match b with
  | None => Some h
  | Some _ => match fuel with 0 => None | S f => nx ← next_of h b; h' ← m_del h b; clear_loop f h' nx end
  end.
Definition pool_clear (h : mem) (p : pool) : option (mem * pool) := h' ← clear_loop (S (size h)) h (blockList p); Some (h', pool0).
Fixpoint reuse_loop (fuel : nat) (h : mem) (b : ptr) : option (mem * ptr) :=
  match fuel with
  | 0 => None
  | S f => nx ← next_of h b; match nx with None => Some (h, b) | Some _ => h' ← m_del h b; reuse_loop f h' nx end
  end.
(** reuse (104-112) *)
Definition pool_reuse (h : mem) (p : pool) : option (mem * pool) :=
  match blockList p with
  | None => Some (h, p)
  | Some _ => '(h', b) ← reuse_loop (S (size h)) h (blockList p); Some (h', Pool b 1)
  end.
(** the last block of a list *)
Fixpoint rear_loop (fuel : nat) (h : mem) (b : ptr) : option ptr :=
  match fuel with
  | 0 => None
  | S f => nx ← next_of h b; match nx with None => Some b | Some _ => rear_loop f h nx end
  end.
(** splice (114-129): the other pool becomes empty *)
Definition pool_splice (h : mem) (p o : pool) : option (mem * pool * pool) :=
  '(h', l) ← (match blockList p with
              | None => Some (h, blockList o)
              | Some _ => match blockList o with
                          | None => Some (h, blockList p)
                          | Some _ => r ← rear_loop (S (size h)) h (blockList o); h' ← m_set h r (Ptr false (blockList p)); Some (h', blockList o)
                          end
              end);
  Some (h', Pool l (nextUnit o), Pool None BU).
(** moveFrom (77-81): the target is raw memory; the source is left without blocks *)
Definition pool_move (o : pool) : pool := Pool (blockList o) (nextUnit o).

(** ** Programs using pools.  [hands] are the pointers (with their sizes in units) the program got from a pool and may use. *)
Record pworld := PWorld { pmem : mem; pools : gmap nat (pool * list (ptr * nat)) }.
Inductive pop :=
| PNew (x : nat)                          (** MemoryPool x; *)
| PAlloc (x n : nat) (vs : list cell)     (** p = x.alloc(n), and the units are initialised with vs *)
| PWrite (x k : nat) (vs : list cell)     (** the k-th allocation is overwritten *)
| PClear (x : nat)                        (** x.clear() *)
| PReuse (x : nat)                        (** x.reuse() *)
| PSplice (x y : nat)                     (** x.splice(y) *)
| PMove (x y : nat)                       (** y.moveFrom(x) where y is raw memory; x goes away without destruction, as in MyVector *)
| PDestroy (x : nat).                     (** ~MemoryPool *)
Definition pexec (w : pworld) (c : pop) : option pworld :=
  let h := pmem w in
  match c with
  | PNew x => match pools w !! x with None => Some (PWorld h (<[x := (pool0, [])]> (pools w))) | Some _ => None end
  | PAlloc x n vs =>
      '(p, hs) ← pools w !! x;
      '(h1, p1, q) ← pool_alloc h p n;
      h2 ← m_write h1 q vs;
      Some (PWorld h2 (<[x := (p1, hs ++ [(q, length vs)])]> (pools w)))
  | PWrite x k vs =>
      '(p, hs) ← pools w !! x;
      '(q, n) ← hs !! k;
      h2 ← m_write h q vs;
      Some (PWorld h2 (pools w))
  | PClear x =>
      '(p, hs) ← pools w !! x;
      '(h1, p1) ← pool_clear h p;
      Some (PWorld h1 (<[x := (p1, [])]> (pools w)))
  | PReuse x =>
      '(p, hs) ← pools w !! x;
      '(h1, p1) ← pool_reuse h p;
      Some (PWorld h1 (<[x := (p1, [])]> (pools w)))
  | PSplice x y =>
      '(p, hs) ← pools w !! x;
      '(o, hs') ← pools w !! y;
      '(h1, p1, o1) ← pool_splice h p o;
      Some (PWorld h1 (<[y := (o1, [])]> (<[x := (p1, hs ++ hs')]> (pools w))))
  | PMove x y =>
      '(p, hs) ← pools w !! x;
      match pools w !! y with None => Some (PWorld h (<[y := (pool_move p, hs)]> (delete x (pools w)))) | Some _ => None end
  | PDestroy x =>
      '(p, hs) ← pools w !! x;
      '(h1, _) ← pool_clear h p;
      Some (PWorld h1 (delete x (pools w)))
  end.
Fixpoint pexec_all (w : pworld) (l : list pop) : option pworld :=
  match l with [] => Some w | c :: l' => w' ← pexec w c; pexec_all w' l' end.
Definition pworld0 : pworld := PWorld ∅ ∅.
(** what the program reads through its pointers *)
Definition pview (w : pworld) (x : nat) : option (list (list cell)) :=
  '(_, hs) ← pools w !! x; mapM (fun '(q, n) => m_read (pmem w) q n) hs.
End pool.
(** 400000 / 8 and a tenth of it *)
Definition BLOCK_UNITS : nat := N.to_nat 50000.
Definition MAX_ELEMENT_UNITS : nat := N.to_nat 5000.
