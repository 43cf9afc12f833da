(** Specification: the drawings that ConstraintZdd keeps. *)
From Verif Require Import Base M_Numlin S_Numlin.
Local Open Scope nat_scope.

Section tidy.
Context (b : board) (hl vl : nat -> nat -> bool).
Record tidy : Prop := {
  (** No line takes three sides of a square of four cells. *)
  tidy_square : forall i j, S i < b_rows b -> S j < b_cols b -> b2n (hl i j) + b2n (hl (S i) j) + b2n (vl i j) + b2n (vl i (S j)) <= 2;
  (** Where a line comes from above and turns to the right, the cell inside the corner is used; and where it turns to the left. *)
  tidy_right : forall i j, S i < b_rows b -> S j < b_cols b -> hl (S i) j = true -> vl i j = true -> ~ blank b hl vl (i, S j);
  tidy_left : forall i j, S i < b_rows b -> S j < b_cols b -> hl (S i) j = true -> vl i (S j) = true -> ~ blank b hl vl (i, j);
  (** Where a line goes up, to the right and down again, there is a horizontal link or a number below it. *)
  tidy_arch : forall i j k, S i < b_rows b -> j <= k -> S k < b_cols b -> vl i j = true -> vl i (S k) = true -> (forall c, j <= c <= k -> hl i c = true) ->
    ~ ((forall c, j <= c <= k -> hl (S i) c = false) /\ (forall c, j < c <= k -> number b (S i, c) = 0))
}.
End tidy.
