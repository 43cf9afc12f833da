(** Model of util/BigNumber.hpp: class FixedBigNumber<size> (266-373).
    val is the list of its [size] words, lowest first. *)
From Verif Require Import Base.
Local Open Scope N_scope.

(** conversions to uint32_t and uint64_t *)
Definition w32 (x : N) : N := x mod 2 ^ 32.
Definition w64 (x : N) : N := x mod 2 ^ 64.
(** long long, two's complement, from uint64_t, and back to unsigned words *)
Definition signed64 (x : N) : Z := if x <? 2 ^ 63 then Z.of_N x else (Z.of_N x - 2 ^ 64)%Z.
Definition z32 (z : Z) : N := Z.to_N (z mod 2 ^ 32)%Z.
Definition z64 (z : Z) : N := Z.to_N (z mod 2 ^ 64)%Z.

(** constructors and assignment (271-290); None: val[0] of an empty array *)
Definition fb_zero (size : nat) : list N := replicate size 0.
Definition fb_of (size : nat) (i : N) : option (list N) := match size with O => None | S k => Some (i :: replicate k 0) end.
(** operator== (292-297) and with a word (303-309) *)
Fixpoint fb_eqb (a o : list N) : bool :=
  match a, o with v :: a, w :: o => if negb (v =? w) then false else fb_eqb a o | _, _ => true end.
Definition fb_eqb32 (a : list N) (n : N) : option bool :=
  match a with [] => None | v :: a => Some (if negb (v =? n) then false else forallb (fun w => w =? 0) a) end.
(** operator+= (315-324): the words and the carry [x] after the loop; it throws if the carry is not 0 *)
Fixpoint fb_add_loop (a o : list N) (x : N) : list N * N :=
  match a, o with
  | v :: a, w :: o => let x := w64 (w64 (x + v) + w) in let r := fb_add_loop a o (N.shiftr x 32) in (w32 x :: fst r, snd r)
  | _, _ => ([], x)
  end.
Definition fb_add (a o : list N) : list N * bool := let r := fb_add_loop a o 0 in (fst r, negb (snd r =? 0)).
(** operator+ (326-330): None: the exception passes on *)
Definition fb_plus (a o : list N) : option (list N) := let r := fb_add a o in if snd r then None else Some (fst r).
(** divide (332-341), from the highest word on; lldiv is the signed division *)
Fixpoint fb_div_loop (a : list N) (n : N) : list N * N :=
  match a with
  | [] => ([], 0)
  | w :: a =>
      let '(q, r) := fb_div_loop a n in
      let r := w64 (w64 (N.shiftl r 32) + w) in
      (z32 (Z.quot (signed64 r) (Z.of_N n)) :: q, z64 (Z.rem (signed64 r) (Z.of_N n)))
  end.
Definition fb_divide (a : list N) (n : N) : option (list N * N) :=
  if n =? 0 then None else let r := fb_div_loop a n in Some (fst r, w32 (snd r)).
(** translate (343-351) for an unsigned type T of [bits] > 32 bits *)
Fixpoint fb_translate (bits : N) (a : list N) : N :=
  match a with [] => 0 | w :: a => (N.shiftl (fb_translate bits a) 32 mod 2 ^ bits + w) mod 2 ^ bits end.
(** printHelper (354-358): the digits; [fuel] bounds the depth of the recursion *)
Fixpoint fb_print_helper (fuel : nat) (a : list N) : option (list N) :=
  match fuel with
  | O => None
  | S fuel =>
      '(a, r) ← fb_divide a 10;
      z ← fb_eqb32 a 0;
      if (z : bool) then Some [r] else ds ← fb_print_helper fuel a; Some (ds ++ [r])
  end.
(** operator<< (361-365): a copy is printed; a number of s words has at most 10 s digits *)
Definition fb_print (a : list N) : option (list N) := fb_print_helper (10 * length a) a.
