(** Numbers in a fixed number of words. *)
From Verif Require Import Base.
Local Open Scope N_scope.

(** words of 32 bits, lowest first, the number they hold, and the numbers that do not fit *)
Definition words (a : list N) : Prop := Forall (fun w => w < 2 ^ 32) a.
Fixpoint number (a : list N) : N := match a with [] => 0 | w :: a => w + 2 ^ 32 * number a end.
Definition capacity (a : list N) : N := (2 ^ 32) ^ N.of_nat (length a).
