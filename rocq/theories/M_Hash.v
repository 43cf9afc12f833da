(** Model of util/MyHashTable.hpp: MyHashConstant, MyHashTable, MyHashMap. *)
From Verif Require Import Base.

(** MyHashTable.hpp 39-52: the table of primes. *)
Definition primes : list N := [
  2^3 + 3; 2^4 + 3; 2^5 + 5; 2^6 + 3; 2^7 + 3; 2^8 + 7;
  2^9 + 9; 2^10 + 7; 2^11 + 5; 2^12 + 3; 2^13 + 17; 2^14 + 27;
  2^15 + 3; 2^16 + 3; 2^17 + 29; 2^18 + 3; 2^19 + 21; 2^20 + 7;
  2^21 + 17; 2^22 + 15; 2^23 + 9; 2^24 + 43; 2^25 + 35; 2^26 + 15;
  2^27 + 29; 2^28 + 3; 2^29 + 11; 2^30 + 3; 2^31 + 11; 2^32 + 15;
  2^33 + 17; 2^34 + 25; 2^35 + 53; 2^36 + 31; 2^37 + 9; 2^38 + 7;
  2^39 + 23; 2^40 + 15 ]%N.

(** MyHashTable.hpp 59-68: the binary search; [fuel] bounds the number of iterations. *)
Fixpoint prime_search (fuel lo hi : nat) (n : N) : nat :=
  match fuel with
  | O => lo
  | S k => if lo <? hi
           then let i := (lo + hi) / 2 in
                if (n <=? nth i primes 0)%N then prime_search k lo i n
                else prime_search k (S i) hi n
           else lo
  end.

(** MyHashTable.hpp 38-72.  64-bit overflow of n + 1 is not modelled. *)
Definition primeSize (n : N) : N :=
  let hi := length primes - 1 in
  if (nth hi primes 0 <? n)%N then (n + 1)%N
  else nth (prime_search (length primes) 0 hi n) primes 0%N.

Section hash_table.
  Context {A : Type} (hash : A -> N) (eqb : A -> A -> bool).

  (** MyHashTable.hpp 154-159.  An entry equal to Entry() is an empty slot, here [None];
      tableSize_ is the length of [slots].  tableCapacity_ (storage reuse) and the statistics
      counter collisions_ are not modelled. *)
  Record htable := HT { slots : list (option A); hsize : nat; hmax : nat }.

  (** MyHashTable.hpp 165-168 *)
  Definition ht_empty : htable := HT [] 0 0.

  (** MyHashTable.hpp 301-317 *)
  Definition ht_init (n : nat) : htable :=
    let ts := N.to_nat (primeSize (N.of_nat n * 100 / 75 + 1)) in
    HT (replicate ts None) 0 (ts * 75 / 100).

  (** MyHashTable.hpp 344-349, 372-376: linear probing; [inl i]: an equal entry is in slot i,
      [inr i]: slot i is empty, [None]: the loop does not end. *)
  Fixpoint ht_probe (fuel : nat) (l : list (option A)) (i : nat) (x : A) : option (nat + nat) :=
    match fuel with
    | O => None
    | S k => match l !! i with
             | None => None
             | Some None => Some (inr i)
             | Some (Some y) =>
                 if eqb y x then Some (inl i)
                 else ht_probe k l (let i' := S i in if length l <=? i' then 0 else i') x
             end
    end.

  (** MyHashTable.hpp 342, 371 *)
  Definition ht_start (t : htable) (x : A) : nat :=
    N.to_nat (hash x mod N.of_nat (length (slots t))).

  Definition ht_find (t : htable) (x : A) : option (nat + nat) :=
    ht_probe (length (slots t)) (slots t) (ht_start t x) x.

  (** MyHashTable.hpp 336-360 without the rehash branch: [None] when a rehash would be needed. *)
  Definition ht_add1 (t : htable) (x : A) : option (htable * nat) :=
    match ht_find t x with
    | None => None
    | Some (inl i) => Some (t, i)
    | Some (inr i) =>
        if hsize t <? hmax t
        then Some (HT (<[i := Some x]> (slots t)) (S (hsize t)) (hmax t), i)
        else None
    end.

  (** MyHashTable.hpp 454-468: iteration over the occupied slots in slot order *)
  Definition ht_elems (t : htable) : list A := omap id (slots t).

  (** MyHashTable.hpp 323-329 *)
  Definition ht_rehash (t : htable) (n : nat) : option htable :=
    ofold (fun tmp x => fst <$> ht_add1 tmp x) (ht_elems t)
          (ht_init (max (length (slots t)) n)).

  (** MyHashTable.hpp 336-360; the loop 341-355 runs at most twice (a third round is [None]).
      The result is the table and the index of the slot the returned reference denotes. *)
  Definition ht_add (t0 : htable) (x : A) : option (htable * nat) :=
    t ← (if length (slots t0) =? 0 then ht_rehash t0 1 else Some t0);
    match ht_find t x with
    | None => None
    | Some (inl i) => Some (t, i)
    | Some (inr i) =>
        if hsize t <? hmax t
        then Some (HT (<[i := Some x]> (slots t)) (S (hsize t)) (hmax t), i)
        else t' ← ht_rehash t (hsize t * 2); ht_add1 t' x
    end.

  (** MyHashTable.hpp 367-380: [Some None] is the null pointer *)
  Definition ht_get (t : htable) (x : A) : option (option nat) :=
    if 0 <? length (slots t)
    then match ht_find t x with
         | None => None
         | Some (inl i) => Some (Some i)
         | Some (inr _) => Some None
         end
    else Some None.

  (** assignment through the reference returned by add (e.g. MyHashTable.hpp 602-604) *)
  Definition ht_modify (t : htable) (i : nat) (f : A -> A) : option htable :=
    match slots t !! i with
    | Some (Some y) => Some (HT (<[i := Some (f y)]> (slots t)) (hsize t) (hmax t))
    | _ => None
    end.

  Definition ht_at (t : htable) (i : nat) : option A :=
    match slots t !! i with Some (Some y) => Some y | _ => None end.
End hash_table.
Arguments htable : clear implicits.
