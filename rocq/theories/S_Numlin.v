(** What a solution of a Numberlink puzzle is.  Cells are pairs (row, column); [hl i j] tells whether (i, j) and (i, j + 1) are linked,
    [vl i j] whether (i, j) and (i + 1, j) are. *)
From Verif Require Import Base Sem M_Numlin.
Local Open Scope nat_scope.

(** a board as readNumbers makes it *)
Definition board_ok (b : board) : Prop :=
  1 <= b_rows b /\ 1 <= b_cols b /\ length (b_number b) = b_rows b /\
  (forall i r, b_number b !! i = Some r -> length r = b_cols b) /\
  forall i k t, b_num b i k = Some t -> (0 <= t)%Z.

(** the number in a cell, 0 if there is none *)
Definition number (b : board) (c : nat * nat) : nat := Z.to_nat (default 0%Z (b_num b (fst c) (snd c))).
Definition on_board (b : board) (c : nat * nat) : Prop := fst c < b_rows b /\ snd c < b_cols b.

Section puzzle.
Context (b : board) (hl vl : nat -> nat -> bool).

(** two cells are linked *)
Definition right_of (c d : nat * nat) : Prop := d = (fst c, S (snd c)) /\ hl (fst c) (snd c) = true.
Definition below (c d : nat * nat) : Prop := d = (S (fst c), snd c) /\ vl (fst c) (snd c) = true.
Definition linked (c d : nat * nat) : Prop :=
  on_board b c /\ on_board b d /\ (right_of c d \/ right_of d c \/ below c d \/ below d c).

(** [c] has exactly the partners [ds] *)
Definition partners (c : nat * nat) (ds : list (nat * nat)) : Prop := NoDup ds /\ forall d, linked c d <-> d ∈ ds.

(** a cell that is not used *)
Definition blank (c : nat * nat) : Prop := number b c = 0 /\ forall d, ~ linked c d.

(** Every number is the end of one line, every other cell is passed by one line or not used, every line leads to a
    number, and lines join equal numbers only. *)
Record solution : Prop := {
  sol_number : forall c, on_board b c -> number b c <> 0 -> exists d, partners c [d];
  sol_free : forall c, on_board b c -> number b c = 0 -> (exists d e, partners c [d; e]) \/ blank c;
  sol_line : forall c d, linked c d -> exists z, rtc linked c z /\ number b z <> 0;
  sol_same : forall c d, rtc linked c d -> number b c <> 0 -> number b d <> 0 -> number b c = number b d
}.

(** at most k cells are not used; every k is allowed if it is negative *)
Definition blanks_at_most (k : Z) : Prop :=
  (0 <= k)%Z -> forall cs, NoDup cs -> (forall c, c ∈ cs -> on_board b c /\ blank c) -> (Z.of_nat (length cs) <= k)%Z.

(** the degree conditions alone (what DegreeZdd checks) *)
Definition degrees_ok : Prop :=
  forall c, on_board b c ->
    (number b c <> 0 -> exists d, partners c [d]) /\
    (number b c = 0 -> (exists d e, partners c [d; e]) \/ blank c).
End puzzle.

(** The horizontal links that a set of levels stands for: (i, j)-(i, j + 1) is decided at level
    top - i * (cols - 1) - j (ddnumlin.cpp 70-75). *)
Definition links_of_vec (b : board) (v : vec) (i j : nat) : bool :=
  negb (v (b_rows b * (b_cols b - 1) - i * (b_cols b - 1) - j) =? 0).

(** a solution with at most k cells that are not used *)
Definition solved (b : board) (hl vl : nat -> nat -> bool) (k : Z) : Prop := solution b hl vl /\ blanks_at_most b hl vl k.

(** matrices of links: r rows of c entries *)
Definition cell (M : list (list bool)) (i j : nat) : bool := default false (M !! i ≫= (fun r => r !! j)).
Definition shape {A} (r c : nat) (M : list (list A)) : Prop := length M = r /\ forall i x, M !! i = Some x -> length x = c.
(** a completed drawing of the board: links of the right extent that solve it *)
Definition drawing (b : board) (k : Z) (h v : list (list bool)) : Prop :=
  shape (b_rows b) (b_cols b - 1) h /\ shape (b_rows b - 1) (b_cols b) v /\ solved b (cell h) (cell v) k.

(** the mates are stored in 8 bits, the counter in 16 *)
Definition fits (b : board) (k : Z) : Prop :=
  (forall i j t, b_num b i j = Some t -> (Z.of_nat (b_cols b) + t <= 255)%Z) /\ (k <= 65535)%Z.
