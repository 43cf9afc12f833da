(** Model of util/BigNumber.hpp: class BigNumber.
    An array of uint64_t is the list of its words (N below 2^64) from the address [array] to the end of
    the allocated storage; [None] is an access outside it.  Functions that modify the array return the
    modified array and the value p - array. *)
From Verif Require Import Base.
Local Open Scope N_scope.

(** BigNumber.hpp 40: MSB = 1 << 63 *)
Definition MSB : N := 2 ^ 63.
(** uint64_t arithmetic *)
Definition u64 (x : N) : N := x mod 2 ^ 64.
(** w & MSB, w & ~MSB and x | MSB for 64-bit words *)
Definition msb (w : N) : bool := N.testbit w 63.
Definition low (w : N) : N := N.land w (N.ones 63).
Definition with_msb (x : N) : N := N.lor x MSB.

(** BigNumber.hpp 57-63 (null pointers: see [bn_size]) *)
Fixpoint big_size (a : list N) : option nat :=
  match a with
  | [] => None
  | w :: a' => if msb w then k ← big_size a'; Some (S k) else Some 1%nat
  end.

(** BigNumber.hpp 77-81: do *p++ = *q; while ( *q++ & MSB) *)
Fixpoint big_store (a o : list N) : option (list N * nat) :=
  match a, o with
  | _ :: a', w :: o' => if msb w then '(r, k) ← big_store a' o'; Some (w :: r, S k)
                        else Some (w :: a', 1%nat)
  | _, _ => None
  end.

(** BigNumber.hpp 84-99 *)
Definition big_store64 (a : list N) (n : N) : option (list N * nat) :=
  match a with
  | [] => None
  | _ :: a' => if msb n then match a' with [] => None | _ :: a'' => Some (n :: 1 :: a'', 2%nat) end
               else Some (n :: a', 1%nat)
  end.

(** BigNumber.hpp 105-110 *)
Fixpoint big_eqb (a o : list N) : option bool :=
  match a, o with
  | v :: a', w :: o' => if negb (v =? w) then Some false
                        else if msb w then big_eqb a' o' else Some true
  | _, _ => None
  end.

(** BigNumber.hpp 117-120 *)
Definition big_eqb64 (a : list N) (n : N) : option bool :=
  v ← head a;
  if negb (v =? n) then Some false
  else if negb (msb n) then Some true else w ← a !! 1%nat; Some (w =? 1).

(** BigNumber.hpp 159-160: *p++ = x; if (x & MSB) *p++ = 1 *)
Definition add_finish (a : list N) (x : N) : option (list N * nat) := big_store64 a x.

(** BigNumber.hpp 136-141: p is at its last word; [a] starts at *p, [q] at *q; x contains both. *)
Fixpoint add_q (a q : list N) (x : N) {struct q} : option (list N * nat) :=
  match q with
  | [] => None
  | w :: q' =>
      if msb w then
        match a, q' with
        | _ :: a', w' :: _ =>
            '(r, k) ← add_q a' q' (u64 (N.shiftr x 63 + low w')); Some (with_msb x :: r, S k)
        | _, _ => None
        end
      else add_finish a x
  end.

(** BigNumber.hpp 147-151: q is at its last word. *)
Fixpoint add_p (a : list N) (x : N) : option (list N * nat) :=
  match a with
  | [] => None
  | w :: a' =>
      if msb w then
        match a' with
        | w' :: _ => '(r, k) ← add_p a' (u64 (N.shiftr x 63 + low w')); Some (with_msb x :: r, S k)
        | [] => None
        end
      else add_finish a x
  end.

(** BigNumber.hpp 131-157 *)
Fixpoint add_loop (a q : list N) (x : N) : option (list N * nat) :=
  match a, q with
  | v :: a', w :: q' =>
      let x1 := u64 (u64 (x + low v) + low w) in
      if negb (msb v) then add_q a q x1
      else if negb (msb w) then add_p a x1
      else '(r, k) ← add_loop a' q' (N.shiftr x1 63); Some (with_msb x1 :: r, S k)
  | _, _ => None
  end.
(** BigNumber.hpp 126-163; [o] is another array *)
Definition big_add (a o : list N) : option (list N * nat) := add_loop a o 0.

(** BigNumber.hpp 177-186: one word; returns the new word, the remainder and the new value of cont *)
Definition div_word (w r : N) (cont : bool) : N * N * bool :=
  let q := if cont then MSB else 0 in
  let r1 := N.lor (u64 (N.shiftl r 31)) (N.shiftr (low w) 32) in
  let q1 := u64 (q + u64 (N.shiftl (r1 / 10) 32)) in
  let r2 := N.lor (u64 (N.shiftl (r1 mod 10) 32)) (N.land w (N.ones 32)) in
  let q2 := u64 (q1 + r2 / 10) in
  (q2, r2 mod 10, cont || negb (q2 =? 0)).
(** BigNumber.hpp 165-190.  The argument n of divide is not used by the code: it always divides by 10.
    The recursion runs to the last word and works backwards. *)
Fixpoint div_loop (a : list N) : option (list N * N * bool) :=
  match a with
  | [] => None
  | w :: a' =>
      '(a1, r, cont) ← (if msb w then div_loop a' else Some (a', 0, false));
      let '(q, r', cont') := div_word w r cont in
      Some (q :: a1, r', cont')
  end.
Definition big_divide (a : list N) : option (list N * N) :=
  '(a', r, _) ← div_loop a; Some (a', r).

(** BigNumber.hpp 196-201: move all words up by [w] places, then fill with MSB *)
Definition shift_words (a : list N) (w : nat) : option (list N) :=
  s ← big_size a;
  a1 ← ofold (fun a q => v ← a !! q; _ ← a !! (q + w)%nat; Some (<[(q + w)%nat := v]> a))
             (reverse (seq 0 s)) a;
  ofold (fun a q => _ ← a !! q; Some (<[q := MSB]> a)) (seq 0 w) a1.
(** BigNumber.hpp 208-221 *)
Fixpoint shift_bits (a : list N) (k x : N) : option (list N * nat) :=
  match a with
  | [] => None
  | p :: a' =>
      let tmp := N.lor x (u64 (N.shiftl p k)) in
      let x' := N.shiftr (low p) (63 - k) in
      if negb (msb p) then
        if x' =? 0 then Some (low tmp :: a', 1%nat)
        else match a' with
             | [] => None
             | _ :: a'' => Some (with_msb tmp :: x' :: a'', 2%nat)
             end
      else '(r, n) ← shift_bits a' k x'; Some (with_msb tmp :: r, S n)
  end.
(** BigNumber.hpp 192-224 (k >= 0) *)
Definition big_shiftl (a : list N) (k : nat) : option (list N * nat) :=
  a1 ← (if (63 <=? k)%nat then shift_words a (k / 63) else Some a);
  shift_bits a1 (N.of_nat (k mod 63)) 0.

(** BigNumber.hpp 226-238 for a type T without overflow *)
Fixpoint big_translate (a : list N) : option N :=
  match a with
  | [] => None
  | w :: a' => if msb w then v ← big_translate a'; Some (N.shiftl v 63 + low w) else Some w
  end.

(** BigNumber.hpp 241-245: the digits in the order in which they are written; [fuel] bounds the depth of
    the recursion. *)
Fixpoint print_helper (fuel : nat) (a : list N) : option (list N) :=
  match fuel with
  | O => None
  | S f => '(a', r) ← big_divide a;
           z ← big_eqb64 a' 0;
           if (z : bool) then Some [r] else ds ← print_helper f a'; Some (ds ++ [r])
  end.
(** BigNumber.hpp 248-255 (and 257-261): a fresh copy of size() words is printed.
    A number of s words has less than 21 s digits. *)
Definition big_print (a : list N) : option (list N) :=
  s ← big_size a;
  '(c, _) ← big_store (replicate s 0) a;
  print_helper (21 * s) c.

(** ** Null pointers: a BigNumber object is [None] when array == 0 *)
Definition bignum := option (list N).
(** BigNumber.hpp 57-63 *)
Definition bn_size (n : bignum) : option nat := match n with None => Some 1%nat | Some a => big_size a end.
(** BigNumber.hpp 65-82; [inr] is the exception *)
Definition bn_store64 (n : bignum) (x : N) : option (bignum * nat + unit) :=
  match n with
  | None => Some (if x =? 0 then inl (None, 1%nat) else inr tt)
  | Some a => '(a', k) ← big_store64 a x; Some (inl (Some a', k))
  end.
Definition bn_store (n o : bignum) : option (bignum * nat + unit) :=
  match o with
  | None => bn_store64 n 0
  | Some q => match n with
              | None => w ← head q; Some (if w =? 0 then inl (None, 1%nat) else inr tt)
              | Some a => '(a', k) ← big_store a q; Some (inl (Some a', k))
              end
  end.
(** BigNumber.hpp 101-111, 117-120 *)
Definition bn_eqb64 (n : bignum) (x : N) : option bool :=
  match n with None => Some (x =? 0) | Some a => big_eqb64 a x end.
Definition bn_eqb (n o : bignum) : option bool :=
  match n, o with
  | None, _ => bn_eqb64 o 0
  | _, None => bn_eqb64 n 0
  | Some a, Some q => big_eqb a q
  end.
