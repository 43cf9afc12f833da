(** Text written to a std::ostream, as the list of its characters. *)
From Coq Require Import Ascii String.
From Verif Require Import Base.
Local Open Scope nat_scope.

Notation text := (list ascii).
(** a string literal *)
Definition lit (s : string) : text := list_ascii_of_string s.
(** the end of line character '\n' *)
Definition nl : ascii := ascii_of_nat 10.
Definition blank : ascii := ascii_of_nat 32.

(** std::ostream::operator<< for unsigned or non-negative integers: decimal digits, no padding.
    [fuel] bounds the number of digits. *)
Fixpoint dec_go (fuel n : nat) (acc : text) : text :=
  match fuel with
  | 0 => acc
  | S f => let acc' := ascii_of_nat (48 + n mod 10) :: acc in
           if n / 10 =? 0 then acc' else dec_go f (n / 10) acc'
  end.
Definition dec (n : nat) : text := dec_go (S n) n [].
