(** util/MyVector.hpp 32-532: vectors that manage raw storage and the life times of their elements.
    A block of storage is a list of slots; a slot holds an object or is raw.  Constructing over an object, destructing or
    reading raw memory, releasing a block that still holds objects (they would never be destructed) or with a wrong size, access
    outside a block and failing assertions are undefined (None).
    Simplifications: sizes do not wrap; memory does not run out; copying an element gives an equal element. *)
From Verif Require Import Base.
From stdpp Require Import gmap.

Section vector.
Context {T : Type} (dflt : T).
Notation slot := (option T).
Notation omem := (gmap nat (list slot)).
Context (alloc : omem -> nat).

(** ** storage *)
Definition o_new (h : omem) (n : nat) : omem * option nat := let b := alloc h in (<[b := replicate n None]> h, Some b).
Definition is_raw (s : slot) : bool := match s with None => true | Some _ => false end.
(** deallocate (43-45); releasing a null pointer does nothing *)
Definition o_del (h : omem) (p : option nat) (n : nat) : option omem :=
  match p with
  | None => Some h
  | Some b => c ← h !! b; if (length c =? n) && forallb is_raw c then Some (delete b h) else None
  end.
(** new (p + i) T(x) *)
Definition o_cons (h : omem) (p : option nat) (i : nat) (x : T) : option omem :=
  b ← p; c ← h !! b; match c !! i with Some None => Some (<[b := <[i := Some x]> c]> h) | _ => None end.
(** p[i].~T() *)
Definition o_dest (h : omem) (p : option nat) (i : nat) : option omem :=
  b ← p; c ← h !! b; match c !! i with Some (Some _) => Some (<[b := <[i := None]> c]> h) | _ => None end.
(** p[i], p[i] = x *)
Definition o_get (h : omem) (p : option nat) (i : nat) : option T := b ← p; c ← h !! b; s ← c !! i; s.
Definition o_set (h : omem) (p : option nat) (i : nat) (x : T) : option omem :=
  b ← p; c ← h !! b; match c !! i with Some (Some _) => Some (<[b := <[i := Some x]> c]> h) | _ => None end.

(** capacity_, size_, array_ (34-36) *)
Record vec := Vec { v_cap : nat; v_size : nat; v_arr : option nat }.
(** 63-65 *)
Definition vec0 : vec := Vec 0 0 None.
(** moveElement (54-60): nothing to do when the addresses are the same *)
Definition moveElement (h : omem) (p : option nat) (i : nat) (q : option nat) (j : nat) : option omem :=
  if bool_decide (p = q) && (i =? j) then Some h else x ← o_get h p i; h1 ← o_cons h q j x; o_dest h1 p i.
(** while (n < size_) array_[--size_].~T(); *)
Definition destroy_down (h : omem) (p : option nat) (size n : nat) : option omem :=
  ofold (fun h i => o_dest h p i) (reverse (seq n (size - n))) h.
(** while (size_ < n) new (p + size_++) T(); *)
Definition construct_up (h : omem) (p : option nat) (size n : nat) : option omem :=
  ofold (fun h i => o_cons h p i dflt) (seq size (n - size)) h.
Definition move_all (h : omem) (p q : option nat) (size : nat) : option omem := ofor size (fun h i => moveElement h p i q i) h.
(** reserve (201-214) *)
Definition reserve (h : omem) (v : vec) (c : nat) : option (omem * vec) :=
  if v_cap v <? c then
    let '(h1, tmp) := o_new h c in
    h3 ← (match v_arr v with
          | None => Some h1
          | Some _ => if v_size v <=? v_cap v then h2 ← move_all h1 (v_arr v) tmp (v_size v); o_del h2 (v_arr v) (v_cap v) else None
          end);
    Some (h3, Vec c (v_size v) tmp)
  else Some (h, v).
(** ensureCapacity (47-52) *)
Definition ensureCapacity (h : omem) (v : vec) (c : nat) : option (omem * vec) :=
  if v_cap v <? c then reserve h v (c * 2) else Some (h, v).
(** clear (292-302): size_ is counted down only when there is an array *)
Definition clear (h : omem) (v : vec) : option (omem * vec) :=
  match v_arr v with
  | None => Some (h, Vec 0 (v_size v) None)
  | Some _ =>
      if 0 <? v_cap v then
        h1 ← destroy_down h (v_arr v) (v_size v) 0; h2 ← o_del h1 (v_arr v) (v_cap v); Some (h2, Vec 0 0 None)
      else None
  end.
(** resize (232-263) *)
Definition resize (h : omem) (v : vec) (n : nat) : option (omem * vec) :=
  if n =? 0 then clear h v
  else if (v_cap v * 10 <=? n * 11) && (n <=? v_cap v) then
    h1 ← destroy_down h (v_arr v) (v_size v) n;
    h2 ← construct_up h1 (v_arr v) (v_size v `min` n) n;
    Some (h2, Vec (v_cap v) n (v_arr v))
  else
    h1 ← destroy_down h (v_arr v) (v_size v) n;
    let size := v_size v `min` n in
    let '(h2, tmp) := o_new h1 n in
    h3 ← move_all h2 (v_arr v) tmp size;
    h4 ← construct_up h3 tmp size n;
    h5 ← o_del h4 (v_arr v) (v_cap v);
    Some (h5, Vec n n tmp).
(** init (220-225) *)
Definition init (h : omem) (v : vec) (n : nat) : option (omem * vec) :=
  h1 ← destroy_down h (v_arr v) (v_size v) 0; resize h1 (Vec (v_cap v) 0 (v_arr v)) n.
(** new (array_ + i) T(o[i]) for i < n; the assertion of operator[] (369-372) *)
Definition copy_all (h : omem) (p : option nat) (o : vec) (n : nat) : option omem :=
  ofor n (fun h i => x ← (if i <? v_size o then o_get h (v_arr o) i else None); o_cons h p i x) h.
(** push_back (310-314) of a value outside the vector *)
Definition push_back (h : omem) (v : vec) (x : T) : option (omem * vec) :=
  '(h1, v1) ← ensureCapacity h v (v_size v + 1);
  h2 ← o_cons h1 (v_arr v1) (v_size v1) x;
  Some (h2, Vec (v_cap v1) (v_size v1 + 1) (v_arr v1)).
(** ... and of one of its own elements, passed by reference *)
Definition push_back_own (h : omem) (v : vec) (i : nat) : option (omem * vec) :=
  '(h1, v1) ← ensureCapacity h v (v_size v + 1);
  x ← o_get h1 (v_arr v) i;
  h2 ← o_cons h1 (v_arr v1) (v_size v1) x;
  Some (h2, Vec (v_cap v1) (v_size v1 + 1) (v_arr v1)).
(** pop_back (319-321) *)
Definition pop_back (h : omem) (v : vec) : option (omem * vec) :=
  if 0 <? v_size v then h1 ← o_dest h (v_arr v) (v_size v - 1); Some (h1, Vec (v_cap v) (v_size v - 1) (v_arr v)) else Some (h, v).
(** constructor from a size (67-70), from a size and a value (72-78) *)
Definition vec_n (h : omem) (n : nat) : option (omem * vec) := resize h vec0 n.
Definition vec_fill (h : omem) (n : nat) (x : T) : option (omem * vec) :=
  '(h1, v1) ← reserve h vec0 n; ofor n (fun '(h, v) _ => push_back h v x) (h1, v1).
(** copy constructor (91-97) *)
Definition vec_copy (h : omem) (o : vec) : option (omem * vec) :=
  let '(h1, p) := if v_size o =? 0 then (h, None) else o_new h (v_size o) in
  h2 ← copy_all h1 p o (v_size o); Some (h2, Vec (v_size o) (v_size o) p).
(** operator= (99-107).  When both are the same vector, [o] changes with the target: o.size_ is read after the clearing. *)
Definition vec_assign (h : omem) (v o : vec) (same : bool) : option (omem * vec) :=
  '(h1, v1) ← resize h v 0;
  let o1 := if same then v1 else o in
  '(h2, v2) ← reserve h1 v1 (v_size o1);
  let o2 := if same then v2 else o in
  let v3 := Vec (v_cap v2) (v_size o2) (v_arr v2) in
  let o3 := if same then v3 else o in
  h3 ← copy_all h2 (v_arr v3) o3 (v_size v3);
  Some (h3, v3).
(** erase(first, last) (273-286), with first = array_ + i and last = array_ + j *)
Definition erase_range (h : omem) (v : vec) (i j : nat) : option (omem * vec) :=
  if (i <=? j) && (j <=? v_size v) then
    let newSize := v_size v - (j - i) in
    h1 ← ofold (fun h k => x ← o_get h (v_arr v) (j + k); o_set h (v_arr v) k x) (seq i (newSize - i)) h;
    h2 ← destroy_down h1 (v_arr v) (v_size v) newSize;
    Some (h2, Vec (v_cap v) newSize (v_arr v))
  else None.
(** erase(pos) (487-491) with pos = array_ + i, for elements of one byte: memmove moves end() - pos - 1 bytes *)
Definition erase_pos (h : omem) (v : vec) (i : nat) : option (omem * vec) :=
  if i <? v_size v then
    h1 ← ofold (fun h k => x ← o_get h (v_arr v) (k + 1); o_set h (v_arr v) k x) (seq i (v_size v - i - 1)) h; Some (h1, v)
  else None.
(** operator== (510-516) and hash (497-503), given the comparison and the hash codes of elements; unsigned arithmetic mod 2^64 *)
Definition vec_eq (teq : T -> T -> bool) (h : omem) (v o : vec) : option bool :=
  if negb (v_size v =? v_size o) then Some false
  else (fix go (n : nat) (i : nat) : option bool :=
          match n with
          | 0 => Some true
          | S n' => x ← o_get h (v_arr v) i; y ← o_get h (v_arr o) i; if teq x y then go n' (i + 1) else Some false
          end) (v_size v) 0.
Definition vec_hash (thash : T -> N) (h : omem) (v : vec) : option N :=
  ofor (v_size v) (fun c i => x ← o_get h (v_arr v) i; Some ((c * 31 + thash x) mod 2 ^ 64)%N) (N.of_nat (v_size v) mod 2 ^ 64)%N.
(** operator[] (359-372), back (340-352) *)
Definition vec_get (h : omem) (v : vec) (i : nat) : option T := if i <? v_size v then o_get h (v_arr v) i else None.
Definition vec_set (h : omem) (v : vec) (i : nat) (x : T) : option omem := if i <? v_size v then o_set h (v_arr v) i x else None.
Definition vec_back (h : omem) (v : vec) : option T := if 1 <=? v_size v then o_get h (v_arr v) (v_size v - 1) else None.
(** begin..end (389-415) and rbegin..rend (417-481) *)
Definition vec_list (h : omem) (v : vec) : option (list T) := mapM (o_get h (v_arr v)) (seq 0 (v_size v)).
Definition vec_rlist (h : omem) (v : vec) : option (list T) := mapM (o_get h (v_arr v)) (reverse (seq 0 (v_size v))).

(** ** Programs using vectors *)
Record vworld := VWorld { vmem : omem; vvars : gmap nat vec }.
Inductive vop :=
| VNew (x : nat) | VNewN (x n : nat) | VFill (x n : nat) (a : T) | VCopy (x y : nat) | VAssign (x y : nat) | VSwap (x y : nat)
| VReserve (x n : nat) | VInit (x n : nat) | VResize (x n : nat) | VErase (x i j : nat) | VErasePos (x i : nat) | VClear (x : nat)
| VPush (x : nat) (a : T) | VPushOwn (x i : nat) | VPop (x : nat) | VSet (x i : nat) (a : T) | VDestroy (x : nat).
Definition bind_new (w : vworld) (x : nat) (r : option (omem * vec)) : option vworld :=
  match vvars w !! x with Some _ => None | None => '(h, v) ← r; Some (VWorld h (<[x := v]> (vvars w))) end.
Definition bind_old (w : vworld) (x : nat) (f : vec -> option (omem * vec)) : option vworld :=
  v ← vvars w !! x; '(h, v') ← f v; Some (VWorld h (<[x := v']> (vvars w))).
Definition vexec (w : vworld) (c : vop) : option vworld :=
  let h := vmem w in
  match c with
  | VNew x => bind_new w x (Some (h, vec0))
  | VNewN x n => bind_new w x (vec_n h n)
  | VFill x n a => bind_new w x (vec_fill h n a)
  | VCopy x y => o ← vvars w !! y; bind_new w x (vec_copy h o)
  | VAssign x y => o ← vvars w !! y; bind_old w x (fun v => vec_assign h v o (x =? y))
  | VSwap x y => v ← vvars w !! x; o ← vvars w !! y; Some (VWorld h (<[x := o]> (<[y := v]> (vvars w))))
  | VReserve x n => bind_old w x (fun v => reserve h v n)
  | VInit x n => bind_old w x (fun v => init h v n)
  | VResize x n => bind_old w x (fun v => resize h v n)
  | VErase x i j => bind_old w x (fun v => erase_range h v i j)
  | VErasePos x i => bind_old w x (fun v => erase_pos h v i)
  | VClear x => bind_old w x (fun v => clear h v)
  | VPush x a => bind_old w x (fun v => push_back h v a)
  | VPushOwn x i => bind_old w x (fun v => push_back_own h v i)
  | VPop x => bind_old w x (fun v => pop_back h v)
  | VSet x i a => bind_old w x (fun v => h' ← vec_set h v i a; Some (h', v))
  | VDestroy x => v ← vvars w !! x; '(h1, _) ← clear h v; Some (VWorld h1 (delete x (vvars w)))
  end.
Fixpoint vexec_all (w : vworld) (l : list vop) : option vworld :=
  match l with [] => Some w | c :: l' => w' ← vexec w c; vexec_all w' l' end.
Definition vworld0 : vworld := VWorld ∅ ∅.
End vector.
Notation omem T := (gmap nat (list (option T))).
Arguments vop : clear implicits.
Arguments vworld : clear implicits.
