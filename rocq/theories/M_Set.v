(** util/MySet.hpp: sets of small numbers as bit vectors (37-289) and small sets as sorted arrays (291-581).
    None is undefined behaviour: access outside the array, a failing assertion, a shift by 64, reading memory that was never
    written. *)
From Verif Require Import Base.
From Coq Require Import NArith.

(** ** MyBitSet<N> (37-277): N words, or with N = 0 as many words as array_[0] says, after it *)
Record bitset := BitSet { b_N : nat; b_arr : list N }.
(** offset (39) *)
Definition offset (b : bitset) : nat := if b_N b =? 0 then 1 else 0.
(** numWords (70-72) *)
Definition numWords (b : bitset) : option nat := if b_N b =? 0 then N.to_nat <$> b_arr b !! 0 else Some (b_N b).
(** word (43-51), read and written *)
Definition word (b : bitset) (i : nat) : option N := n ← numWords b; if i <? n then b_arr b !! (i + offset b) else None.
Definition set_word (b : bitset) (i : nat) (w : N) : option bitset :=
  n ← numWords b;
  if (i <? n) && (i + offset b <? length (b_arr b)) then Some (BitSet (b_N b) (<[i + offset b := w]> (b_arr b))) else None.
(** mask (53-55) *)
Definition mask (i : nat) : option N := if i <? 64 then Some (N.shiftl 1 (N.of_nat i)) else None.
(** constructor (58-63), on memory with unknown contents *)
Definition b_new (cN : nat) (raw : list N) (x : N) : option bitset :=
  match raw with
  | [] => None
  | _ => let b := BitSet cN (<[0 := x]> raw) in
         n ← numWords b;
         let i := if cN =? 0 then 0 else 1 in
         ofold (fun b i => set_word b i 0%N) (seq i (n - i)) b
  end.
(** clear (78-82), empty (88-93) *)
Definition b_clear (b : bitset) : option bitset := n ← numWords b; ofor n (fun b i => set_word b i 0%N) b.
Fixpoint all_zero (b : bitset) (i k : nat) : option bool :=
  match k with 0 => Some true | S k' => w ← word b i; if negb (w =? 0)%N then Some false else all_zero b (i + 1) k' end.
Definition b_empty (b : bitset) : option bool := n ← numWords b; all_zero b 0 n.
(** add (99-103), remove (109-113), includes (138-142) *)
Definition b_add (b : bitset) (i : nat) : option bitset := w ← word b (i / 64); m ← mask (i mod 64); set_word b (i / 64) (N.lor w m).
Definition b_remove (b : bitset) (i : nat) : option bitset := w ← word b (i / 64); m ← mask (i mod 64); set_word b (i / 64) (N.ldiff w m).
Definition b_includes (b : bitset) (i : nat) : option bool := w ← word b (i / 64); m ← mask (i mod 64); Some (negb (N.land w m =? 0)%N).
(** pullout (120-131) *)
Definition b_pullout (b : bitset) (i : nat) : option bitset :=
  let k := i / 64 in
  w ← word b k;
  n ← numWords b;
  m1 ← mask (i mod 64 + 1);
  let m := (m1 - 1)%N in
  let p := k + offset b in
  let a1 := <[p := N.lor (N.ldiff w m) (N.land (N.shiftl w 1 mod 2 ^ 64) m)]> (b_arr b) in
  a ← ofold (fun a q => wq ← a !! q; wp ← a !! (q - 1);
              Some (<[q := (N.shiftl wq 1 mod 2 ^ 64)%N]> (<[q - 1 := N.lor wp (N.shiftr wq 63)]> a))) (seq (p + 1) (n - 1)) a1;
  Some (BitSet (b_N b) a).
(** intersects (149-155) *)
Fixpoint any_common (b o : bitset) (i k : nat) : option bool :=
  match k with
  | 0 => Some false
  | S k' => w ← word b i; v ← word o i; if negb (N.land w v =? 0)%N then Some true else any_common b o (i + 1) k'
  end.
Definition b_intersects (b o : bitset) : option bool := n ← numWords b; n' ← numWords o; any_common b o 0 (n `min` n').
(** const_iterator (157-220): bitPos is kept plus one *)
Record biter := BIter { i_pos : nat; i_bit : nat; i_word : N }.
(** __builtin_ffsll: one plus the number of trailing zeros *)
Fixpoint pos_ffs (p : positive) : nat := match p with xO q => S (pos_ffs q) | _ => 1 end.
Definition ffsll (w : N) : nat := match w with N0 => 0 | Npos p => pos_ffs p end.
(** 163-165, 167-170, 172-174, 176-211, 213-219 *)
Definition bi_end (b : bitset) : option biter := n ← numWords b; Some (BIter n 0 0).
Definition bi_step (it : biter) : biter :=
  if (i_word it =? 2 ^ 63)%N then BIter (i_pos it) 64 0
  else let k := ffsll (i_word it) in BIter (i_pos it) (i_bit it + k) (N.shiftr (i_word it) (N.of_nat k)).
Fixpoint bi_next (fuel : nat) (b : bitset) (it : biter) : option biter :=
  if negb (i_word it =? 0)%N then Some (bi_step it)
  else match fuel with
       | 0 => None
       | S f =>
           n ← numWords b;
           if n <=? i_pos it + 1 then Some (BIter n 0 0)
           else w ← word b (i_pos it + 1); bi_next f b (BIter (i_pos it + 1) 0 w)
       end.
Definition bi_get (it : biter) : nat := i_pos it * 64 + i_bit it - 1.
Definition bi_eq (x y : biter) : bool := (i_pos x =? i_pos y) && (i_bit x =? i_bit y).
(** begin (226-228) *)
Definition bi_begin (b : bitset) : option biter :=
  n ← numWords b; if n =? 0 then bi_end b else w ← word b 0; bi_next (S n) b (BIter 0 0 w).
(** for (t = begin(); t != end(); ++t) visit *t *)
Fixpoint bi_all (fuel : nat) (b : bitset) (it : biter) : option (list nat) :=
  e ← bi_end b;
  if bi_eq it e then Some []
  else match fuel with
       | 0 => None
       | S f => n ← numWords b; it' ← bi_next (S n) b it; r ← bi_all f b it'; Some (bi_get it :: r)
       end.
Definition b_list (b : bitset) : option (list nat) := n ← numWords b; it ← bi_begin b; bi_all (64 * n) b it.
(** hash (242-249), == (256-263); unsigned arithmetic mod 2^64 *)
Definition b_hash (b : bitset) : option N := n ← numWords b; ofor n (fun h i => w ← word b i; Some ((h + w) * 314159257 mod 2 ^ 64)%N) 0%N.
Fixpoint words_eq (b o : bitset) (i k : nat) : option bool :=
  match k with 0 => Some true | S k' => w ← word b i; v ← word o i; if negb (w =? v)%N then Some false else words_eq b o (i + 1) k' end.
Definition b_eq (b o : bitset) : option bool := n ← numWords b; n' ← numWords o; if negb (n' =? n) then Some false else words_eq b o 0 n.
(** MyBitSetOnPool::newInstance (285-288): 1 + n words *)
Definition b_on_pool (raw : list N) (bits : nat) : option bitset :=
  let n := (bits + 63) / 64 in if length raw =? 1 + n then b_new 0 raw (N.of_nat n) else None.

(** ** MySmallSet<T,N> (291-552).  Simplification: the elements are integers.  The array has N elements, or with N = 0 as many as the
    pool gave; an element that was not written is None. *)
Record sset := SSet { s_N : nat; s_size : nat; s_arr : list (option Z) }.
Definition s_get (s : sset) (i : nat) : option Z := x ← s_arr s !! i; x.
Definition a_get (a : list (option Z)) (i : nat) : option Z := x ← a !! i; x.
Definition a_set (a : list (option Z)) (i : nat) (x : Z) : option (list (option Z)) := if i <? length a then Some (<[i := Some x]> a) else None.
(** 297-299, clear (313-315) *)
Definition s_new (cN : nat) (raw : list (option Z)) : sset := SSet cN 0 raw.
Definition s_clear (s : sset) : sset := SSet (s_N s) 0 (s_arr s).
(** add (339-355); r is p + 1 - array_.  The flag says that out_of_range was thrown. *)
Fixpoint add_loop (r : nat) (size : nat) (a : list (option Z)) (e : Z) : option (nat * list (option Z)) :=
  let stop := a' ← a_set a r e; Some (size + 1, a') in
  match r with
  | 0 => stop
  | S r' =>
      x ← a_get a r';
      if (e <=? x)%Z then
        if (e =? x)%Z then
          a' ← ofold (fun a p => y ← a_get a (p + 1); a_set a p y) (seq r (size - r)) a; Some (size, a')
        else a' ← a_set a r x; add_loop r' size a' e
      else stop
  end.
Definition s_add (s : sset) (e : Z) : option (bool * sset) :=
  if (0 <? s_N s) && (s_N s - 1 <=? s_size s) then Some (true, s)
  else '(n, a) ← add_loop (s_size s) (s_size s) (s_arr s) e; Some (false, SSet (s_N s) n a).
(** begin..end (431-447): the elements in order; rbegin..rend (449-493) *)
Definition s_list (s : sset) : option (list Z) := mapM (s_get s) (seq 0 (s_size s)).
Definition s_rlist (s : sset) : option (list Z) := mapM (s_get s) (reverse (seq 0 (s_size s))).
(** std::lower_bound on a sorted range: the first position whose element is not less than e *)
Fixpoint lower_bound (l : list Z) (e : Z) : nat := match l with [] => 0 | x :: l' => if (x <? e)%Z then S (lower_bound l' e) else 0 end.
(** remove (361-368) *)
Definition s_remove (s : sset) (e : Z) : option sset :=
  l ← s_list s;
  let p := lower_bound l e in
  if p =? s_size s then Some s
  else x ← s_get s p;
       if negb (x =? e)%Z then Some s
       else a ← ofold (fun a q => y ← a_get a (q + 1); a_set a q y) (seq p (s_size s - 1 - p)) (s_arr s);
            Some (SSet (s_N s) (s_size s - 1) a).
(** includes (375-377); std::binary_search is lower_bound and a comparison *)
Definition s_includes (s : sset) (e : Z) : option bool :=
  l ← s_list s;
  let p := lower_bound l e in
  if p =? s_size s then Some false else x ← s_get s p; Some (negb (e <? x)%Z).
(** equals (385-396), intersects (404-416), containsAll (424-436) with a container holding [c] *)
Fixpoint eq_loop (l c : list Z) : bool :=
  match l, c with
  | x :: l', y :: c' => if negb (x =? y)%Z then false else eq_loop l' c'
  | [], [] => true
  | _, _ => false
  end.
Definition s_equals (s : sset) (c : list Z) : option bool := l ← s_list s; Some (eq_loop l c).
Fixpoint int_loop (fuel : nat) (l c : list Z) : bool :=
  match fuel, l, c with
  | S f, x :: l', y :: c' => if (x =? y)%Z then true else if (x <? y)%Z then int_loop f l' c else int_loop f l c'
  | _, _, _ => false
  end.
Definition s_intersects (s : sset) (c : list Z) : option bool := l ← s_list s; Some (int_loop (length l + length c) l c).
Fixpoint all_loop (fuel : nat) (l c : list Z) : bool :=
  match fuel, l, c with
  | S f, x :: l', y :: c' => if (y <? x)%Z then false else if (x <? y)%Z then all_loop f l' c else all_loop f l' c'
  | _, _, [] => true
  | _, _, _ => false
  end.
Definition s_containsAll (s : sset) (c : list Z) : option bool := l ← s_list s; Some (all_loop (length l + length c) l c).
(** hash (507-513), == (520-526) *)
Definition s_hash (ehash : Z -> N) (s : sset) : option N :=
  ofor (s_size s) (fun h k => x ← s_get s k; Some ((h * 271828171 + ehash x) mod 2 ^ 64)%N) 0%N.
Fixpoint elems_eq (s o : sset) (i k : nat) : option bool :=
  match k with 0 => Some true | S k' => x ← s_get s i; y ← s_get o i; if negb (x =? y)%Z then Some false else elems_eq s o (i + 1) k' end.
Definition s_eq (s o : sset) : option bool := if negb (s_size s =? s_size o) then Some false else elems_eq s o 0 (s_size s).
(** MySmallSetOnPool::newInstance(pool, copy) (571-579) *)
Definition s_copy (raw : list (option Z)) (c : list Z) : option sset :=
  if length raw =? length c then ofold (fun s e => '(_, s') ← s_add s e; Some s') c (s_new 0 raw) else None.

(** ** Histories *)
Inductive bop := BAdd (i : nat) | BRemove (i : nat) | BClear.
Definition bexec (b : bitset) (c : bop) : option bitset := match c with BAdd i => b_add b i | BRemove i => b_remove b i | BClear => b_clear b end.
Inductive sop := SAdd (e : Z) | SRemove (e : Z) | SClear.
Definition sexec (s : sset) (c : sop) : option (bool * sset) :=
  match c with SAdd e => s_add s e | SRemove e => s' ← s_remove s e; Some (false, s') | SClear => Some (false, s_clear s) end.
(** the set after a history, and which operations threw *)
Fixpoint sexec_all (s : sset) (l : list sop) : option (list bool * sset) :=
  match l with [] => Some ([], s) | c :: l' => '(t, s1) ← sexec s c; '(ts, s2) ← sexec_all s1 l'; Some (t :: ts, s2) end.
